(** C45, C65: the Richardson-Lucy iterations *)
From Verif Require Import Base Arrays PeaksModel PeaksProofs WfmProps PmapioProofs DbProps CorrModel CorrSpec CorrProps PaolinaTracks Graph DeconvModel DeconvClusters RlModel RlSpec RlProps.
From Coq Require Import Relations Permutation.
Local Open Scope Q_scope.

(** ---- specification ---- *)
(** images and kernels without negative values *)
Definition nonneg (l : list Q) : Prop := forall v, In v l -> 0 <= v.
(** the index in the middle of a kernel *)
Definition middle (kshape : list nat) : list Z := map (fun k => Z.of_nat ((k - 1) / 2)) kshape.

(** ---- the elements of an array ---- *)
Lemma find_nodup {A} (l : list (list Z)) (im : list A) n i v : NoDup l -> nth_error l n = Some i -> nth_error im n = Some v -> find (fun p => index_eqb i (fst p)) (combine l im) = Some (i, v).
Proof.
  intros N. revert n im. induction N as [|a l Ha N IH]; intros [|n] [|w im] H1 H2; cbn in *; try discriminate.
  - injection H1 as ->. injection H2 as ->. now rewrite (proj2 (index_eqb_iff i i) eq_refl).
  - destruct (index_eqb i a) eqn:E; [|eauto]. apply index_eqb_iff in E. subst. exfalso. apply Ha. eapply nth_error_In; eassumption.
Qed.
Lemma at_pixel shape im i v : pixel shape im i v -> at_index shape im i = v.
Proof. intros (n & H1 & H2). unfold at_index. now rewrite (find_nodup _ _ n i v (indices_nodup shape) H1 H2). Qed.
Lemma at_outside shape im i : ~ In i (indices shape) -> at_index shape im i = 0.
Proof.
  intros H. unfold at_index. destruct (find _ _) as [[j w]|] eqn:F; [|reflexivity]. exfalso. apply find_some in F. destruct F as [F E]. cbn in E. apply index_eqb_iff in E. subst j. apply in_combine_l in F. contradiction.
Qed.
Lemma at_map shape f i : In i (indices shape) -> at_index shape (map f (indices shape)) i = f i.
Proof. intros H. apply In_nth_error in H. destruct H as [n Hn]. apply at_pixel. exists n. split; [assumption|]. now apply map_nth_error. Qed.
Lemma list_at shape im : length im = length (indices shape) -> im = map (at_index shape im) (indices shape).
Proof.
  intros L. apply nth_error_ext || (apply nth_ext with (d := 0) (d' := 0); [now rewrite map_length|]; intros n Hn). destruct (nth_error (indices shape) n) as [i|] eqn:E; [|apply nth_error_None in E; lia]. destruct (nth_error im n) as [v|] eqn:V; [|apply nth_error_None in V; lia].
  rewrite (nth_error_nth _ _ 0 V). symmetry. apply nth_error_nth. rewrite (map_nth_error _ _ _ E). f_equal. apply at_pixel. exists n. auto.
Qed.
Lemma at_in shape im i : length im = length (indices shape) -> In i (indices shape) -> In (at_index shape im i) im.
Proof. intros L H. rewrite (list_at shape im L) at 2. now apply in_map. Qed.
Lemma at_nonneg shape im i : length im = length (indices shape) -> nonneg im -> 0 <= at_index shape im i.
Proof.
  intros L N. destruct (in_dec (list_eq_dec Z.eq_dec) i (indices shape)) as [H|H]; [apply N; now apply at_in|]. rewrite at_outside by assumption. apply Qle_refl.
Qed.
Lemma nonneg_at shape im : length im = length (indices shape) -> (forall i, In i (indices shape) -> 0 <= at_index shape im i) -> nonneg im.
Proof. intros L H v Hv. rewrite (list_at shape im L) in Hv. apply in_map_iff in Hv. destruct Hv as (i & <- & Hi). auto. Qed.
Lemma map2_at shape (f : Q -> Q -> Q) (a b : list Q) : length a = length (indices shape) -> length b = length (indices shape) -> map2 f a b = map (fun i => f (at_index shape a i) (at_index shape b i)) (indices shape).
Proof.
  intros La Lb. rewrite (list_at shape a La) at 1. rewrite (list_at shape b Lb) at 1. generalize (indices shape). clear. intros l. unfold map2. induction l as [|i l IH]; cbn; [reflexivity|]. now rewrite IH.
Qed.
(** an element as a sum over the array *)
Lemma at_sum shape im x : length im = length (indices shape) -> at_index shape im x == sumF (fun i => if index_eqb x i then at_index shape im i else 0) (indices shape).
Proof.
  intros L. assert (N := indices_nodup shape). destruct (in_dec (list_eq_dec Z.eq_dec) x (indices shape)) as [H|H].
  - clear L. generalize (at_index shape im). intros f. induction N as [|a l Ha N IH]; [destruct H|]. rewrite sumF_cons. destruct H as [->|H].
    + rewrite (proj2 (index_eqb_iff x x) eq_refl). rewrite sumF_zero; [lra|]. intros i Hi. destruct (index_eqb x i) eqn:E; [apply index_eqb_iff in E; subst; contradiction|reflexivity].
    + rewrite <- (IH H). destruct (index_eqb x a) eqn:E; [apply index_eqb_iff in E; subst; contradiction|lra].
  - rewrite at_outside by assumption. symmetry. apply sumF_zero. intros i Hi. destruct (index_eqb x i) eqn:E; [apply index_eqb_iff in E; subst; contradiction|reflexivity].
Qed.

(** ---- convolutions ---- *)
Lemma convolve_length shape im kshape ker : length (convolve_same shape im kshape ker) = length (indices shape).
Proof. unfold convolve_same. apply map_length. Qed.
Lemma convolve_nonneg shape im kshape ker : length im = length (indices shape) -> nonneg im -> nonneg ker -> nonneg (convolve_same shape im kshape ker).
Proof.
  intros L N K v Hv. unfold convolve_same in Hv. apply in_map_iff in Hv. destruct Hv as (i & <- & _). apply sumF_nonneg. intros [a w] H. cbn [fst snd]. apply Qmult_le_0_compat; [now apply at_nonneg|]. apply K. eapply in_combine_r; eassumption.
Qed.
Lemma convolve_at shape im kshape ker i : In i (indices shape) -> at_index shape (convolve_same shape im kshape ker) i = sumF (fun aw => at_index shape im (index_sub (index_add i (middle kshape)) (fst aw)) * snd aw) (combine (indices kshape) ker).
Proof. intros H. unfold convolve_same. now rewrite at_map. Qed.
(** the indices of an array backwards *)
Definition reflect (kshape : list nat) (b : list Z) : list Z := map2 (fun k b => Z.of_nat k - 1 - b)%Z kshape b.
Lemma rev_flat_map {A B} (f : A -> list B) l : rev (flat_map f l) = flat_map (fun a => rev (f a)) (rev l).
Proof. induction l as [|a l IH]; cbn; [reflexivity|]. rewrite rev_app_distr, flat_map_app, IH. cbn. now rewrite app_nil_r. Qed.
Lemma rev_seq n : rev (seq 0 n) = map (fun i => (n - 1 - i)%nat) (seq 0 n).
Proof.
  apply nth_ext with (d := 0%nat) (d' := 0%nat); [now rewrite rev_length, map_length|]. intros i Hi. rewrite rev_length, seq_length in Hi. rewrite rev_nth by now rewrite seq_length. rewrite seq_length, seq_nth by lia. rewrite (nth_indep _ 0%nat ((fun i => n - 1 - i) 0)%nat) by (rewrite map_length, seq_length; lia). rewrite (map_nth (fun i => (n - 1 - i)%nat)), seq_nth by lia. lia.
Qed.
Lemma flat_map_map' {A B C} (f : B -> list C) (g : A -> B) l : flat_map f (map g l) = flat_map (fun a => f (g a)) l.
Proof. induction l as [|a l IH]; cbn; [reflexivity|]. now rewrite IH. Qed.
Lemma map_flat_map {A B C} (g : B -> C) (f : A -> list B) l : map g (flat_map f l) = flat_map (fun a => map g (f a)) l.
Proof. induction l as [|a l IH]; cbn; [reflexivity|]. now rewrite map_app, IH. Qed.
Lemma rev_indices kshape : rev (indices kshape) = map (reflect kshape) (indices kshape).
Proof.
  induction kshape as [|n s IH]; [reflexivity|]. cbn [indices]. rewrite rev_flat_map, rev_seq, flat_map_map', map_flat_map.
  assert (E : forall l, (forall i, In i l -> i < n)%nat -> flat_map (fun a => rev (map (cons (Z.of_nat (n - 1 - a))) (indices s))) l = flat_map (fun a => map (reflect (n :: s)) (map (cons (Z.of_nat a)) (indices s))) l).
  { induction l as [|i l IHl]; intros Hl; [reflexivity|]. cbn [flat_map]. rewrite IHl by (intros; apply Hl; now right). f_equal. rewrite <- map_rev, IH, !map_map. apply map_ext. intros j. unfold reflect, map2. cbn. f_equal. specialize (Hl i (or_introl eq_refl)). lia. }
  apply E. intros i Hi. apply in_seq in Hi. lia.
Qed.
Lemma indices_reflect kshape : indices kshape = map (reflect kshape) (rev (indices kshape)).
Proof. rewrite <- (rev_involutive (indices kshape)) at 1. rewrite rev_indices at 1. now rewrite map_rev. Qed.
Lemma combine_rev {A B} (l : list A) (m : list B) : length l = length m -> combine (rev l) (rev m) = rev (combine l m).
Proof.
  revert m. induction l as [|a l IH]; intros [|b m] L; cbn in *; try discriminate; [reflexivity|]. rewrite <- IH by lia. assert (LR : length (rev l) = length (rev m)) by (rewrite !rev_length; lia). revert LR. generalize (rev l) (rev m). clear. induction l as [|x l IH]; intros [|y m] L; cbn in *; try discriminate; [reflexivity|]. now rewrite IH by lia.
Qed.
Lemma combine_map_l {A B C} (f : A -> C) (l : list A) (m : list B) : combine (map f l) m = map (fun p => (f (fst p), snd p)) (combine l m).
Proof. revert m. induction l as [|a l IH]; intros [|b m]; cbn; try reflexivity. now rewrite IH. Qed.
Lemma mirrored kshape (ker : list Q) : length ker = length (indices kshape) -> combine (indices kshape) (rev ker) = map (fun p => (reflect kshape (fst p), snd p)) (rev (combine (indices kshape) ker)).
Proof. intros L. rewrite (indices_reflect kshape) at 1. rewrite combine_map_l, combine_rev by auto. reflexivity. Qed.
(** a kernel of odd size has its middle at the same distance from both ends *)
Lemma odd_middle k : Nat.Odd k -> (Z.of_nat k - 1 = 2 * Z.of_nat ((k - 1) / 2))%Z.
Proof. intros [m ->]. replace (2 * m + 1 - 1)%nat with (m * 2)%nat by lia. rewrite Nat.div_mul by lia. lia. Qed.
Lemma index_solve kshape i j b : Forall Nat.Odd kshape -> length i = length kshape -> length j = length kshape -> length b = length kshape ->
  index_eqb (index_sub (index_add j (middle kshape)) (reflect kshape b)) i = index_eqb (index_sub (index_add i (middle kshape)) b) j.
Proof.
  intros O Li Lj Lb. apply eq_true_iff_eq. rewrite !index_eqb_iff. revert i j b Li Lj Lb. induction O as [|k ks Hk O IH]; intros [|x i] [|y j] [|z b] Li Lj Lb; cbn in Li, Lj, Lb; try discriminate; [unfold index_sub, map2; cbn; tauto|].
  assert (C : forall (a b : Z) l m, a :: l = b :: m <-> a = b /\ l = m) by (intros; split; [intros E; inversion E; auto|intros [-> ->]; reflexivity]).
  change (((y + Z.of_nat ((k - 1) / 2) - (Z.of_nat k - 1 - z))%Z :: index_sub (index_add j (middle ks)) (reflect ks b) = x :: i) <-> ((x + Z.of_nat ((k - 1) / 2) - z)%Z :: index_sub (index_add i (middle ks)) b = y :: j)).
  rewrite !C, IH by lia. apply odd_middle in Hk. set (m := Z.of_nat ((k - 1) / 2)) in *. clearbody m. intuition lia.
Qed.
Lemma middle_reflect kshape : Forall Nat.Odd kshape -> reflect kshape (middle kshape) = middle kshape.
Proof. intros O. induction O as [|k ks Hk O IH]; [reflexivity|]. change ((Z.of_nat k - 1 - Z.of_nat ((k - 1) / 2))%Z :: reflect ks (middle ks) = Z.of_nat ((k - 1) / 2) :: middle ks). rewrite IH. f_equal. apply odd_middle in Hk. lia. Qed.
Lemma add_sub i kshape : length i = length kshape -> index_sub (index_add i (middle kshape)) (middle kshape) = i.
Proof. revert i. induction kshape as [|k ks IH]; intros [|x i] L; cbn in L; try discriminate; [reflexivity|]. change ((x + Z.of_nat ((k - 1) / 2) - Z.of_nat ((k - 1) / 2))%Z :: index_sub (index_add i (middle ks)) (middle ks) = x :: i). rewrite IH by lia. f_equal. lia. Qed.
(** convolving with the mirrored kernel is the transpose of convolving with the kernel *)
Lemma adjoint shape kshape ker f g : Forall Nat.Odd kshape -> length kshape = length shape -> length ker = length (indices kshape) -> length f = length (indices shape) -> length g = length (indices shape) ->
  sumF (fun j => at_index shape f j * at_index shape (convolve_same shape g kshape (rev ker)) j) (indices shape) == sumF (fun i => at_index shape g i * at_index shape (convolve_same shape f kshape ker) i) (indices shape).
Proof.
  intros O D Lk Lf Lg. set (I := indices shape). set (K := combine (indices kshape) ker).
  assert (HK : forall bw, In bw K -> length (fst bw) = length kshape) by (intros [b w] H; apply in_combine_l in H; now apply indices_length).
  assert (HI : forall i, In i I -> length i = length kshape) by (intros i H; rewrite D; now apply indices_length).
  transitivity (sumF (fun j => sumF (fun bw => sumF (fun i => if index_eqb (index_sub (index_add j (middle kshape)) (reflect kshape (fst bw))) i then at_index shape f j * at_index shape g i * snd bw else 0) I) K) I).
  - apply sumF_ext. intros j Hj. rewrite convolve_at by assumption. rewrite mirrored by assumption. rewrite sumF_map. rewrite (sumF_perm _ _ K) by (symmetry; apply Permutation_rev). rewrite <- sumF_scale. apply sumF_ext. intros [b w] Hb. cbn [fst snd]. rewrite (at_sum shape g) by assumption.
    transitivity (at_index shape f j * w * sumF (fun i => if index_eqb (index_sub (index_add j (middle kshape)) (reflect kshape b)) i then at_index shape g i else 0) I); [fold I; ring|]. rewrite <- sumF_scale. apply sumF_ext. intros i _. destruct (index_eqb _ i); ring.
  - transitivity (sumF (fun i => sumF (fun bw => sumF (fun j => if index_eqb (index_sub (index_add i (middle kshape)) (fst bw)) j then at_index shape f j * at_index shape g i * snd bw else 0) I) K) I).
    + transitivity (sumF (fun bw => sumF (fun j => sumF (fun i => if index_eqb (index_sub (index_add j (middle kshape)) (reflect kshape (fst bw))) i then at_index shape f j * at_index shape g i * snd bw else 0) I) I) K); [apply sumF_swap|].
      transitivity (sumF (fun bw => sumF (fun i => sumF (fun j => if index_eqb (index_sub (index_add i (middle kshape)) (fst bw)) j then at_index shape f j * at_index shape g i * snd bw else 0) I) I) K); [|symmetry; apply sumF_swap].
      apply sumF_ext. intros bw Hbw. rewrite sumF_swap. apply sumF_ext. intros i Hi. apply sumF_ext. intros j Hj. rewrite index_solve; auto. reflexivity.
    + apply sumF_ext. intros i Hi. rewrite convolve_at by assumption. fold K. rewrite <- sumF_scale. apply sumF_ext. intros [b w] Hb. cbn [fst snd]. rewrite (at_sum shape f) by assumption. fold I.
      transitivity (at_index shape g i * w * sumF (fun j => if index_eqb (index_sub (index_add i (middle kshape)) b) j then at_index shape f j else 0) I); [|ring]. rewrite <- sumF_scale. apply sumF_ext. intros j _. destruct (index_eqb _ j); ring.
Qed.

(** ---- one update ---- *)
Lemma protect_at shape x i : length x = length (indices shape) -> In i (indices shape) -> at_index shape (protect x) i = if Qeqb (at_index shape x i) 0 then eps else at_index shape x i.
Proof.
  intros L H. unfold protect. rewrite (list_at shape x L) at 1. rewrite map_map. now rewrite at_map.
Qed.
Section Iterations.
  Variables (shape : list nat) (image : list Q) (kshape : list nat) (psf : list Q).
  Hypothesis sized : length image = length (indices shape).
  Let I := indices shape.
  Let blurred (im : list Q) := convolve_same shape im kshape psf.
  Let blur (im : list Q) := map2 Qdiv image (protect (blurred im)).
  Lemma update_length im : length im = length I -> length (update shape image kshape psf im) = length I.
  Proof. intros L. unfold update. now rewrite length_map2_eq; rewrite ?convolve_length. Qed.
  Lemma blur_length im : length (blur im) = length I.
  Proof using sized. unfold blur. rewrite length_map2_eq; [assumption|]. unfold protect, blurred. now rewrite map_length, convolve_length. Qed.
  Lemma blur_at im i : In i I -> at_index shape (blur im) i = at_index shape image i / (if Qeqb (at_index shape (blurred im) i) 0 then eps else at_index shape (blurred im) i).
  Proof using sized.
    intros H. unfold blur. rewrite (map2_at shape) by (auto; unfold protect, blurred; now rewrite map_length, convolve_length). rewrite at_map by assumption. rewrite protect_at; [reflexivity|apply convolve_length|assumption].
  Qed.
  Lemma update_at im i : length im = length I -> In i I -> at_index shape (update shape image kshape psf im) i = at_index shape im i * at_index shape (convolve_same shape (blur im) kshape (rev psf)) i.
  Proof. intros L H. unfold update. rewrite (map2_at shape) by (auto; now rewrite convolve_length). now rewrite at_map. Qed.
  Hypothesis image_nonneg : nonneg image.
  Hypothesis psf_nonneg : nonneg psf.
  Lemma blurred_nonneg im : length im = length I -> nonneg im -> nonneg (blurred im).
  Proof using psf_nonneg. intros L N. now apply convolve_nonneg. Qed.
  Lemma guarded_pos x : 0 <= x -> 0 < (if Qeqb x 0 then eps else x).
  Proof. intros H. destruct (Qeqb_spec x 0); [reflexivity|lra]. Qed.
  Lemma blur_nonneg im : length im = length I -> nonneg im -> nonneg (blur im).
  Proof using sized image_nonneg psf_nonneg.
    intros L N. apply (nonneg_at shape); [apply blur_length|]. intros i Hi. rewrite blur_at by assumption. assert (P := guarded_pos _ (at_nonneg shape (blurred im) i (convolve_length _ _ _ _) (blurred_nonneg im L N))). assert (0 <= at_index shape image i) by now apply at_nonneg.
    unfold Qdiv. apply Qmult_le_0_compat; [assumption|]. apply Qinv_le_0_compat. lra.
  Qed.
  Lemma rev_nonneg : nonneg (rev psf).
  Proof using psf_nonneg. intros v Hv. apply psf_nonneg. now apply in_rev. Qed.
  Lemma update_nonneg im : length im = length I -> nonneg im -> nonneg (update shape image kshape psf im).
  Proof using sized image_nonneg psf_nonneg.
    intros L N. apply (nonneg_at shape); [now apply update_length|]. intros i Hi. rewrite update_at by assumption. apply Qmult_le_0_compat; [now apply at_nonneg|]. apply at_nonneg; [apply convolve_length|]. apply convolve_nonneg; [apply blur_length|now apply blur_nonneg|apply rev_nonneg].
  Qed.
  Variables (start : option Z) (max_size : Z) (e_cut : Q) (ct : cut_type) (thr : Q).
  Lemma kill_spec i im im' : length im = length I -> kill_satellites shape start max_size e_cut ct i im = Ok im' ->
    length im' = length I /\ forall j, In j I -> at_index shape im' j = at_index shape im j \/ at_index shape im' j = 0.
  Proof using Type.
    clear sized image_nonneg. intros L. unfold kill_satellites. destruct start as [s|]; [|intros E; injection E as <-; auto]. destruct (s <=? Z.of_nat i)%Z; [|intros E; injection E as <-; auto].
    destruct (generate_satellite_mask shape im max_size e_cut ct) as [mask|] eqn:G; [|discriminate]. cbn [rbind]. intros E. injection E as <-. destruct (C42_mask _ _ _ _ _ _ L G) as [Lm _].
    split; [rewrite length_map2_eq; congruence|]. intros j Hj. apply In_nth_error in Hj. destruct Hj as [n Hn]. assert (Hlt : (n < length I)%nat) by (apply nth_error_Some; congruence).
    destruct (nth_error mask n) as [b|] eqn:B; [|apply nth_error_None in B; lia]. destruct (nth_error im n) as [v|] eqn:V; [|apply nth_error_None in V; lia].
    assert (P : pixel shape (map2 (fun (b : bool) v => if b then 0 else v) mask im) j (if b then 0 else v)). { exists n. split; [assumption|]. assert (Hl : (n < length (map2 (fun (b : bool) v => if b then 0%Q else v) mask im))%nat) by (rewrite length_map2_eq; lia). rewrite (nth_error_nth' _ 0 Hl). f_equal. rewrite (nth_map2 _ _ _ _ false 0 0) by lia. now rewrite (nth_error_nth _ _ _ B), (nth_error_nth _ _ _ V). }
    rewrite (at_pixel _ _ _ _ P). rewrite (at_pixel shape im j v) by (exists n; auto). destruct b; auto.
  Qed.
  Lemma kill_ok i im : im <> [] -> exists im', kill_satellites shape start max_size e_cut ct i im = Ok im'.
  Proof using Type.
    intros N. unfold kill_satellites. destruct start as [s|]; [|eauto]. destruct (s <=? Z.of_nat i)%Z; [|eauto]. destruct (C42_total shape im max_size e_cut ct (or_intror N)) as [m ->]. eexists. reflexivity.
  Qed.
  Lemma normalised_ok im : im <> [] -> nonneg im -> exists r, normalised im = Ok r.
  Proof using Type.
    intros NE N. unfold normalised, max_value. assert (G := max_greatest im). destruct (maxQ im) as [m|]; [|congruence]. cbn [rbind]. destruct (Qeqb_spec m 0) as [Z|]; [|eexists; reflexivity].
    assert (F : forallb (fun v => Qeqb v 0) im = true); [|rewrite F; eexists; reflexivity]. apply forallb_forall. intros v Hv. apply Qeqb_eq. destruct G as [_ G]. specialize (G v Hv). specialize (N v Hv). lra.
  Qed.
  (** what holds of the image after every update holds of the result *)
  Lemma iterate_inv (P : list Q -> Prop) : (forall i im im', P im -> kill_satellites shape start max_size e_cut ct i (update shape image kshape psf im) = Ok im' -> P im') ->
    forall n i im ref out, P im -> iterate shape image kshape psf start max_size e_cut ct thr n i im ref = Ok out -> P out.
  Proof using Type.
    intros Step n. induction n as [|n IH]; intros i im ref out H E; cbn [iterate] in E; [injection E as <-; assumption|]. destruct (kill_satellites _ _ _ _ _ _ _) as [im'|] eqn:K; [|discriminate]. cbn [rbind] in E. destruct (normalised im') as [cur|]; [|discriminate]. cbn [rbind] in E. assert (P im') by (eapply Step; eassumption). destruct (below _ _); [injection E as <-; assumption|]. eapply IH; eassumption.
  Qed.
  Definition good (im : list Q) : Prop := length im = length I /\ nonneg im.
  Lemma step_good i im im' : good im -> kill_satellites shape start max_size e_cut ct i (update shape image kshape psf im) = Ok im' -> good im'.
  Proof using sized image_nonneg psf_nonneg.
    intros [L N] K. assert (Lu := update_length im L). destruct (kill_spec _ _ _ Lu K) as [L' H]. split; [assumption|]. apply (nonneg_at shape); [assumption|]. intros j Hj. destruct (H j Hj) as [-> | ->]; [|apply Qle_refl]. apply at_nonneg; [assumption|]. now apply update_nonneg.
  Qed.
  Lemma iterate_ok n : image <> [] -> forall i im ref, good im -> exists out, iterate shape image kshape psf start max_size e_cut ct thr n i im ref = Ok out.
  Proof using sized image_nonneg psf_nonneg.
    intros NE. induction n as [|n IH]; intros i im ref G; cbn [iterate]; [eexists; reflexivity|]. assert (NI : forall l : list Q, length l = length I -> l <> []). { intros l Ll ->. apply NE. assert (length image = 0)%nat by (rewrite sized; fold I; now rewrite <- Ll). now destruct image. }
    destruct (kill_ok i (update shape image kshape psf im)) as [im' K]; [apply NI, update_length, G|]. rewrite K. cbn [rbind]. assert (G' := step_good _ _ _ G K). destruct (normalised_ok im') as [cur C]; [apply NI, G'|apply G'|]. rewrite C. cbn [rbind]. destruct (below _ _); [eexists; reflexivity|]. now apply IH.
  Qed.
  Lemma start_good : good (map (fun _ => 1 # 2) I).
  Proof using Type. split; [apply map_length|]. intros v Hv. apply in_map_iff in Hv. destruct Hv as (i & <- & _). discriminate. Qed.
  (** a pixel that is zero stays zero *)
  Lemma zero_step i im im' j : length im = length I -> In j I -> at_index shape im j == 0 -> kill_satellites shape start max_size e_cut ct i (update shape image kshape psf im) = Ok im' -> at_index shape im' j == 0.
  Proof using Type.
    intros L Hj Z K. destruct (kill_spec _ _ _ (update_length im L) K) as [_ H]. destruct (H j Hj) as [-> | ->]; [|reflexivity]. rewrite update_at by assumption. rewrite Z. ring.
  Qed.
  Lemma zero_iterate n j : In j I -> forall i im ref out, length im = length I -> at_index shape im j == 0 -> iterate shape image kshape psf start max_size e_cut ct thr n i im ref = Ok out -> at_index shape out j == 0.
  Proof using Type.
    intros Hj i im ref out L Z E. apply (iterate_inv (fun im => length im = length I /\ at_index shape im j == 0)) in E; [apply E| |auto]. intros i0 im0 im' [L0 Z0] K. split; [now apply (kill_spec _ _ _ (update_length im0 L0) K)|]. eapply zero_step; eassumption.
  Qed.
  Lemma zero_longer n k j : In j I -> forall i im ref a b, length im = length I -> iterate shape image kshape psf start max_size e_cut ct thr n i im ref = Ok a -> iterate shape image kshape psf start max_size e_cut ct thr (n + k) i im ref = Ok b -> at_index shape a j == 0 -> at_index shape b j == 0.
  Proof using Type.
    intros Hj. induction n as [|n IH]; intros i im ref a b L Ea Eb Z; cbn [iterate plus] in Ea, Eb.
    - injection Ea as <-. eapply zero_iterate; eassumption.
    - destruct (kill_satellites _ _ _ _ _ _ _) as [im'|] eqn:K; [|discriminate]. cbn [rbind] in Ea, Eb. destruct (normalised im') as [cur|]; [|discriminate]. cbn [rbind] in Ea, Eb. destruct (below _ _); [congruence|]. eapply IH; [|exact Ea|exact Eb|exact Z]. now apply (kill_spec _ _ _ (update_length im L) K).
  Qed.
End Iterations.

(** for every image and PSF without negative values and every number of iterations, the deconvolution gives an image of the same shape without negative values *)
Theorem C45_nonnegative shape image kshape psf start max_size e_cut ct thr n : length image = length (indices shape) -> image <> [] -> nonneg image -> nonneg psf ->
  exists out, richardson_lucy shape image kshape psf start max_size e_cut ct thr n = Ok out /\ length out = length image /\ nonneg out.
Proof.
  intros L NE Ni Np. unfold richardson_lucy. destruct (normalised_ok image NE Ni) as [ref ->]. cbn [rbind]. destruct (iterate_ok shape image kshape psf L Ni Np start max_size e_cut ct thr n NE 0%nat _ ref (start_good shape)) as [out E]. exists out. split; [assumption|].
  apply (iterate_inv shape image kshape psf start max_size e_cut ct thr (good shape)) in E; [|intros i im im'; now apply step_good|apply start_good]. destruct E as [E1 E2]. split; [congruence|assumption].
Qed.
Print Assumptions C45_nonnegative.
(** an image without pixels is refused *)
Theorem C45_empty shape kshape psf start max_size e_cut ct thr n : richardson_lucy shape [] kshape psf start max_size e_cut ct thr n = Err ValueError.
Proof. reflexivity. Qed.
(** a pixel that is zero after some iterations is zero after more of them: a killed satellite does not come back *)
Theorem C45_zero shape image kshape psf start max_size e_cut ct thr n m a b j : (n <= m)%nat ->
  richardson_lucy shape image kshape psf start max_size e_cut ct thr n = Ok a -> richardson_lucy shape image kshape psf start max_size e_cut ct thr m = Ok b ->
  pixel shape a j 0 -> exists z, pixel shape b j z /\ z == 0.
Proof.
  intros Hn Ea Eb P. unfold richardson_lucy in *. destruct (normalised image) as [ref|]; [|discriminate]. cbn [rbind] in Ea, Eb.
  assert (Hj : In j (indices shape)) by (destruct P as (k & Hk & _); eapply nth_error_In; eassumption).
  assert (LI : forall n' out, iterate shape image kshape psf start max_size e_cut ct thr n' 0 (map (fun _ => 1 # 2) (indices shape)) ref = Ok out -> length out = length (indices shape)).
  { intros n' out E. apply (iterate_inv shape image kshape psf start max_size e_cut ct thr (fun im => length im = length (indices shape))) in E; [assumption| |apply map_length]. intros i im im' L K. now apply (kill_spec shape start max_size e_cut ct _ _ _ (update_length shape image kshape psf im L) K). }
  replace m with (n + (m - n))%nat in Eb by lia. assert (Z := zero_longer shape image kshape psf start max_size e_cut ct thr n (m - n) j Hj 0%nat _ ref a b (map_length _ _) Ea Eb). rewrite (at_pixel _ _ _ _ P) in Z. specialize (Z (Qeq_refl 0)).
  assert (Lb := LI _ _ Eb). destruct P as (k & Hk & _). exists (at_index shape b j). split; [|assumption]. exists k. split; [assumption|]. rewrite (list_at shape b Lb) at 1. now apply map_nth_error.
Qed.
Print Assumptions C45_zero.
Print Assumptions C45_empty.
