(** C94: which estimate the Richardson-Lucy deconvolution returns *)
From Verif Require Import Base Arrays PeaksModel PeaksProofs WfmProps PmapioProofs DbProps CorrModel CorrSpec CorrProps PaolinaTracks Graph DeconvModel DeconvClusters RlModel RlSpec RlProps RlIter RlSum.
From Coq Require Import Relations Permutation.
Local Open Scope Q_scope.

(** ---- specification ---- *)
Section Spec.
  Variables (shape : list nat) (image : list Q) (kshape : list nat) (psf : list Q).
  Variables (start : option Z) (max_size : Z) (e_cut : Q) (ct : cut_type) (thr : Q).
  Let I := indices shape.
  (** the estimate seen through the PSF *)
  Definition seen (im : list Q) (j : list Z) : Q := sumF (fun a => at_index kshape psf a * at_index shape im (index_sub (index_add j (middle kshape)) a)) (indices kshape).
  (** the image over the estimate seen through the PSF, with eps in place of zeros *)
  Definition ratio (im : list Q) (j : list Z) : Q := at_index shape image j / (if Qeqb (seen im j) 0 then 1 # 4503599627370496 else seen im j).
  (** each pixel is multiplied by the average of the ratios around it, weighted with the PSF *)
  Definition sharpened (im im' : list Q) : Prop := length im' = length I /\ forall i, In i I ->
    at_index shape im' i == at_index shape im i * sumF (fun a => at_index kshape psf a * ratio im (index_sub (index_add i a) (middle kshape))) (indices kshape).
  (** satellites, and nothing else, are removed *)
  Definition cleaned (im im' : list Q) : Prop := length im' = length I /\ forall i, In i I ->
    (satellite shape im e_cut ct max_size i -> at_index shape im' i = 0) /\ (~ satellite shape im e_cut ct max_size i -> at_index shape im' i = at_index shape im i).
  (** the iteration number [k] *)
  Definition step (k : nat) (im im' : list Q) : Prop := exists up, sharpened im up /\
    match start with Some s => if (s <=? Z.of_nat k)%Z then cleaned up im' else im' = up | None => im' = up end.
  (** two images, each one relative to its greatest value, differ by less than the threshold; an image of zeros differs from none *)
  Definition settled (ref cur : list Q) : Prop := exists r m, is_greatest ref r /\ is_greatest cur m /\
    (((r == 0 \/ m == 0) /\ 0 < thr)
     \/ (~ r == 0 /\ ~ m == 0 /\ (forall i, In i I -> at_index shape ref i == 0 -> at_index shape cur i == 0)
         /\ sumF (fun i => let a := at_index shape cur i / m in let b := at_index shape ref i / r in if Qeqb b 0 then 0 else (a - b) * (a - b) / b) I < thr)).
End Spec.

(** ---- the update ---- *)
Lemma at_mapF shape f i : In i (indices shape) -> at_index shape (map f (indices shape)) i = f i. Proof. apply at_map. Qed.
Lemma combine_at kshape (ker : list Q) : length ker = length (indices kshape) -> combine (indices kshape) ker = map (fun a => (a, at_index kshape ker a)) (indices kshape).
Proof. intros L. rewrite (list_at kshape ker L) at 1. generalize (indices kshape). intros l. induction l as [|a l IH]; cbn; [reflexivity|]. now rewrite IH. Qed.
Lemma seen_convolve shape kshape psf im j : length psf = length (indices kshape) -> In j (indices shape) -> at_index shape (convolve_same shape im kshape psf) j == seen shape kshape psf im j.
Proof. intros K H. rewrite convolve_at by assumption. rewrite combine_at by assumption. rewrite sumF_map. unfold seen. apply sumF_ext. intros a _. cbn [fst snd]. ring. Qed.
Lemma reflect_shift kshape i a : Forall Nat.Odd kshape -> length i = length kshape -> length a = length kshape ->
  index_sub (index_add i (middle kshape)) (reflect kshape a) = index_sub (index_add i a) (middle kshape).
Proof.
  intros O. revert i a. induction O as [|k ks Hk O IH]; intros [|x i] [|z a] Li La; cbn in Li, La; try discriminate; [reflexivity|].
  change ((x + Z.of_nat ((k - 1) / 2) - (Z.of_nat k - 1 - z))%Z :: index_sub (index_add i (middle ks)) (reflect ks a) = (x + z - Z.of_nat ((k - 1) / 2))%Z :: index_sub (index_add i a) (middle ks)).
  rewrite IH by lia. f_equal. apply odd_middle in Hk. lia.
Qed.
Section Update.
  Variables (shape : list nat) (image : list Q) (kshape : list nat) (psf : list Q).
  Hypothesis sized : length image = length (indices shape).
  Hypothesis dims : length kshape = length shape.
  Hypothesis kernel : length psf = length (indices kshape).
  Hypothesis odd : Forall Nat.Odd kshape.
  Lemma ratio_at im j : at_index shape (map2 Qdiv image (protect (convolve_same shape im kshape psf))) j == ratio shape image kshape psf im j.
  Proof using sized kernel.
    unfold ratio. destruct (in_dec (list_eq_dec Z.eq_dec) j (indices shape)) as [H|H].
    - rewrite (blur_at shape image kshape psf sized im j H). assert (E := seen_convolve shape kshape psf im j kernel H). destruct (Qeqb_spec (at_index shape (convolve_same shape im kshape psf) j) 0) as [Z|Z], (Qeqb_spec (seen shape kshape psf im j) 0) as [Z'|Z']; try reflexivity; try (exfalso; apply Z' || apply Z; lra). now rewrite E.
    - rewrite at_outside by assumption. rewrite (at_outside shape image) by assumption. unfold Qdiv. ring.
  Qed.
  Lemma update_sharpened im : length im = length (indices shape) -> sharpened shape image kshape psf im (update shape image kshape psf im).
  Proof using All.
    intros L. split; [now apply update_length|]. intros i Hi. rewrite update_at by assumption. rewrite convolve_at by assumption. rewrite mirrored by assumption. rewrite sumF_map.
    rewrite (sumF_perm _ _ (combine (indices kshape) psf)) by (symmetry; apply Permutation_rev). rewrite combine_at by assumption. rewrite sumF_map. apply Qmult_comp; [reflexivity|]. apply sumF_ext. intros a Ha. cbn [fst snd].
    rewrite reflect_shift; [|assumption|rewrite dims; now apply indices_length|now apply indices_length]. rewrite ratio_at. ring.
  Qed.
End Update.

(** ---- the criterion to stop ---- *)
Lemma map2_map {A B C D} (f : B -> C -> D) (g : A -> B) (h : A -> C) l : map2 f (map g l) (map h l) = map (fun a => f (g a) (h a)) l.
Proof. unfold map2. induction l as [|a l IH]; cbn; [reflexivity|]. now rewrite IH. Qed.
Lemma greatest_eq l a b : is_greatest l a -> is_greatest l b -> a == b.
Proof. intros [A1 A2] [B1 B2]. apply Qle_antisym; auto. Qed.
Lemma normalised_cases shape im n : length im = length (indices shape) -> normalised im = Ok n -> exists m, is_greatest im m /\
  ((m == 0 /\ n = map (fun _ => None) (indices shape)) \/ (~ m == 0 /\ n = map (fun i => Some (at_index shape im i / m)) (indices shape))).
Proof.
  intros L. unfold normalised, max_value. pose proof (max_greatest im) as G. destruct (maxQ im) as [m|]; [|discriminate]. cbn [rbind]. intros E. exists m. split; [assumption|].
  destruct (Qeqb_spec m 0) as [Z|Z].
  - left. split; [assumption|]. destruct (forallb _ im); [|discriminate]. injection E as <-. rewrite (list_at shape im L) at 1. now rewrite map_map.
  - right. split; [assumption|]. injection E as <-. rewrite (list_at shape im L) at 1. now rewrite map_map.
Qed.
Lemma below_sum (l : list (list Z)) (t : list Z -> term) thr : (forall i, In i l -> t i = NanTerm) -> below (if existsb (fun t => match t with InfTerm => true | _ => false end) (map t l) then None else Some (sumF (fun t => match t with Num q => q | _ => 0 end) (map t l))) thr = Qltb 0 thr.
Proof.
  intros H. assert (E : map t l = map (fun _ => NanTerm) l) by now apply map_ext_in. rewrite E. assert (X : existsb (fun t => match t with InfTerm => true | _ => false end) (map (fun _ => NanTerm) l) = false). { clear. induction l; cbn; auto. }
  rewrite X. cbn [below]. assert (S0 : sumF (fun t => match t with Num q => q | _ => 0 end) (map (fun _ : list Z => NanTerm) l) == 0). { rewrite sumF_map. apply sumF_zero. reflexivity. }
  apply eq_true_iff_eq. rewrite !Qltb_lt. now rewrite S0.
Qed.
Lemma below_settled shape thr ref cur nr nc : length ref = length (indices shape) -> length cur = length (indices shape) ->
  normalised ref = Ok nr -> normalised cur = Ok nc -> below (rel_diff nc nr) thr = true <-> settled shape thr ref cur.
Proof.
  intros Lr Lc Er Ec. destruct (normalised_cases shape ref nr Lr Er) as (r & Gr & Hr). destruct (normalised_cases shape cur nc Lc Ec) as (m & Gm & Hm). set (I := indices shape) in *.
  assert (Black : (r == 0 \/ m == 0) -> below (rel_diff nc nr) thr = Qltb 0 thr).
  { intros Z. unfold rel_diff. destruct Hr as [[Zr ->]|[Zr ->]], Hm as [[Zm ->]|[Zm ->]]; try tauto; cbn zeta; rewrite map2_map; apply below_sum; intros i _; reflexivity. }
  destruct (Qeq_dec r 0) as [Zr|Zr]; [|destruct (Qeq_dec m 0) as [Zm|Zm]].
  - rewrite Black by tauto. rewrite Qltb_lt. split; [intros T; exists r, m; tauto|]. intros (r' & m' & Gr' & Gm' & [[_ T]|[N _]]); [assumption|]. exfalso. apply N. rewrite <- Zr. eapply greatest_eq; eassumption.
  - rewrite Black by tauto. rewrite Qltb_lt. split; [intros T; exists r, m; tauto|]. intros (r' & m' & Gr' & Gm' & [[_ T]|(_ & N & _)]); [assumption|]. exfalso. apply N. rewrite <- Zm. eapply greatest_eq; eassumption.
  - clear Black. unfold rel_diff. destruct Hr as [[X _]|[_ ->]]; [contradiction|]. destruct Hm as [[X _]|[_ ->]]; [contradiction|]. cbn zeta. rewrite map2_map.
    set (t := fun i => diff_term (Some (at_index shape cur i / m)) (Some (at_index shape ref i / r))).
    assert (T : forall i, (at_index shape ref i == 0 /\ at_index shape cur i == 0 /\ t i = NanTerm) \/ (at_index shape ref i == 0 /\ ~ at_index shape cur i == 0 /\ t i = InfTerm)
       \/ (~ at_index shape ref i == 0 /\ t i = Num ((at_index shape cur i / m - at_index shape ref i / r) * (at_index shape cur i / m - at_index shape ref i / r) / (at_index shape ref i / r)))).
    { intros i. unfold t, diff_term. set (c := at_index shape cur i). set (f := at_index shape ref i).
      assert (D0 : forall a b, ~ b == 0 -> (a / b == 0 <-> a == 0)). { intros a b Nb. split; [intros E; setoid_replace a with (a / b * b) by (field; assumption); rewrite E; ring|intros ->; unfold Qdiv; ring]. }
      destruct (Qeqb_spec (f / r) 0) as [Z|Z].
      - apply (D0 f r Zr) in Z. destruct (Qeqb_spec ((c / m - f / r) * (c / m - f / r)) 0) as [Y|Y].
        + left. split; [assumption|]. split; [|reflexivity]. apply Qmult_integral in Y. assert (Y' : c / m - f / r == 0) by tauto. setoid_replace (f / r) with 0 in Y' by now apply D0. apply (D0 c m Zm). lra.
        + right. left. split; [assumption|]. split; [|reflexivity]. intros C. apply Y. rewrite C, Z. unfold Qdiv. ring.
      - right. right. split; [|reflexivity]. intros F. apply Z. now apply D0. }
    assert (S1 : forall l, (forall i, In i l -> at_index shape ref i == 0 -> at_index shape cur i == 0) -> existsb (fun t => match t with InfTerm => true | _ => false end) (map t l) = false).
    { induction l as [|i l IH]; intros H; [reflexivity|]. cbn [map existsb]. rewrite IH by (intros; apply H; auto; now right). destruct (T i) as [(A & B & ->)|[(A & B & ->)|(A & ->)]]; try reflexivity. exfalso. apply B. apply H; [now left|assumption]. }
    assert (Div : forall i r0, ~ r0 == 0 -> at_index shape ref i == 0 <-> at_index shape ref i / r0 == 0). { intros i r0 N. split; [intros ->; unfold Qdiv; ring|]. intros E. setoid_replace (at_index shape ref i) with (at_index shape ref i / r0 * r0) by (field; assumption). rewrite E. ring. }
    assert (S2 : sumF (fun t => match t with Num q => q | _ => 0 end) (map t I) == sumF (fun i => let a := at_index shape cur i / m in let b := at_index shape ref i / r in if Qeqb b 0 then 0 else (a - b) * (a - b) / b) I).
    { rewrite sumF_map. apply sumF_ext. intros i _. cbn zeta. destruct (Qeqb_spec (at_index shape ref i / r) 0) as [B0|B0]; destruct (T i) as [(A & B & ->)|[(A & B & ->)|(A & ->)]]; try reflexivity; exfalso; rewrite <- (Div i r Zr) in B0; contradiction. }
    split.
    + intros E. exists r, m. split; [assumption|]. split; [assumption|]. right. split; [assumption|]. split; [assumption|].
      destruct (existsb _ (map t I)) eqn:X; [discriminate|]. cbn [below] in E. apply Qltb_lt in E. split; [|eapply Qle_lt_trans; [apply Qle_lteq; right; symmetry; exact S2|exact E]].
      intros i Hi Z. destruct (T i) as [(A & B & _)|[(A & B & C)|(A & _)]]; [assumption| |contradiction]. exfalso. assert (Y : existsb (fun t => match t with InfTerm => true | _ => false end) (map t I) = true); [|congruence]. apply existsb_exists. exists (t i). split; [now apply in_map|]. now rewrite C.
    + intros (r' & m' & Gr' & Gm' & [[Z _]|(Nr & Nm & H & S)]); [exfalso; destruct Z as [Z|Z]; [apply Zr; rewrite <- Z|apply Zm; rewrite <- Z]; eapply greatest_eq; eassumption|].
      rewrite S1 by auto. cbn [below]. apply Qltb_lt. eapply Qle_lt_trans; [apply Qle_lteq; right; exact S2|]. assert (Qr := greatest_eq _ _ _ Gr Gr'). assert (Qm := greatest_eq _ _ _ Gm Gm').
      eapply Qle_lt_trans; [|exact S]. apply Qle_lteq. right. apply sumF_ext. intros i _. cbn zeta.
      destruct (Qeqb_spec (at_index shape ref i / r) 0) as [B|B], (Qeqb_spec (at_index shape ref i / r') 0) as [B'|B']; try reflexivity; [exfalso; apply B'; rewrite <- Qr; exact B|exfalso; apply B; rewrite Qr; exact B'|].
      rewrite Qr, Qm. reflexivity.
Qed.

(** ---- the iterations ---- *)
Section Stop.
  Variables (shape : list nat) (image : list Q) (kshape : list nat) (psf : list Q).
  Variables (start : option Z) (max_size : Z) (e_cut : Q) (ct : cut_type) (thr : Q).
  Hypothesis sized : length image = length (indices shape).
  Hypothesis dims : length kshape = length shape.
  Hypothesis kernel : length psf = length (indices kshape).
  Hypothesis odd : Forall Nat.Odd kshape.
  Lemma kill_step k im im' : length im = length (indices shape) -> kill_satellites shape start max_size e_cut ct k (update shape image kshape psf im) = Ok im' ->
    length im' = length (indices shape) /\ step shape image kshape psf start max_size e_cut ct k im im'.
  Proof using sized dims kernel odd.
    intros L K. assert (Lu := update_length shape image kshape psf im L). split; [now apply (kill_spec shape start max_size e_cut ct k _ im' Lu K)|].
    exists (update shape image kshape psf im). split; [now apply update_sharpened|]. unfold kill_satellites in K. destruct start as [s|]; [|congruence]. destruct (s <=? Z.of_nat k)%Z; [|congruence].
    destruct (generate_satellite_mask _ _ _ _ _) as [mask|] eqn:G; [|discriminate]. cbn [rbind] in K. injection K as <-. destruct (C42_mask _ _ _ _ _ _ Lu G) as [Lm M]. set (up := update shape image kshape psf im) in *.
    split; [rewrite length_map2_eq; congruence|]. intros i Hi. apply In_nth_error in Hi. destruct Hi as [n Hn]. assert (Hlt : (n < length (indices shape))%nat) by (apply nth_error_Some; congruence).
    destruct (nth_error mask n) as [b|] eqn:B; [|apply nth_error_None in B; lia]. destruct (nth_error up n) as [v|] eqn:V; [|apply nth_error_None in V; lia].
    assert (P : pixel shape (map2 (fun (b : bool) v => if b then 0 else v) mask up) i (if b then 0 else v)).
    { exists n. split; [assumption|]. assert (Hl : (n < length (map2 (fun (b : bool) v => if b then 0%Q else v) mask up))%nat) by (rewrite length_map2_eq; lia). rewrite (nth_error_nth' _ 0 Hl). f_equal. rewrite (nth_map2 _ _ _ _ false 0 0) by lia. now rewrite (nth_error_nth _ _ _ B), (nth_error_nth _ _ _ V). }
    rewrite (at_pixel _ _ _ _ P). rewrite (at_pixel shape up i v) by (exists n; auto). specialize (M n i Hn). rewrite B in M.
    split; intros S; destruct b; try reflexivity; exfalso; [|apply S]; [assert (Some false = Some true) by now apply M|]; [discriminate|now apply M].
  Qed.
  Lemma iterate_stop n : forall i im ref nref out, length im = length (indices shape) -> length ref = length (indices shape) -> normalised ref = Ok nref ->
    iterate shape image kshape psf start max_size e_cut ct thr n i im nref = Ok out ->
    exists k est, (k <= n)%nat /\ est 0%nat = im /\ est k = out /\ (forall j, (j < k)%nat -> step shape image kshape psf start max_size e_cut ct (i + j) (est j) (est (S j)))
      /\ (forall j, (S j < k)%nat -> ~ settled shape thr (match j with O => ref | _ => est j end) (est (S j)))
      /\ (k = n \/ exists j, k = S j /\ settled shape thr (match j with O => ref | _ => est j end) (est k)).
  Proof using sized dims kernel odd.
    induction n as [|n IH]; intros i im ref nref out L Lr Er E; cbn [iterate] in E.
    - injection E as <-. exists 0%nat, (fun _ => im). split; [lia|]. split; [reflexivity|]. split; [reflexivity|]. split; [intros j Hj; lia|]. split; [intros j Hj; lia|]. now left.
    - destruct (kill_satellites _ _ _ _ _ _ _) as [im'|] eqn:K; [|discriminate]. cbn [rbind] in E. destruct (normalised im') as [cur|] eqn:C; [|discriminate]. cbn [rbind] in E. destruct (kill_step i im im' L K) as [L' St].
      destruct (below (rel_diff cur nref) thr) eqn:B.
      + injection E as <-. exists 1%nat, (fun k => match k with O => im | _ => im' end). split; [lia|]. split; [reflexivity|]. split; [reflexivity|]. split; [intros j Hj; assert (j = 0)%nat as -> by lia; now rewrite Nat.add_0_r|]. split; [intros j Hj; lia|].
        right. exists 0%nat. split; [reflexivity|]. cbn. now apply (below_settled shape thr ref im' nref cur).
      + destruct (IH (S i) im' im' cur out L' L' C E) as (k & est & Hk & E0 & Ek & Steps & NS & Last).
        exists (S k), (fun k => match k with O => im | S k => est k end). split; [lia|]. split; [reflexivity|]. split; [assumption|]. split; [|split].
        * intros [|j] Hj; [rewrite Nat.add_0_r, E0; assumption|]. replace (i + S j)%nat with (S i + j)%nat by lia. apply Steps. lia.
        * intros [|j] Hj; [rewrite E0; intros F; apply (below_settled shape thr ref im' nref cur Lr L' Er C) in F; congruence|]. specialize (NS j ltac:(lia)). destruct j; [rewrite E0|]; exact NS.
        * destruct Last as [->|(j & -> & St2)]; [now left|]. right. exists (S j). split; [reflexivity|]. cbn. destruct j; [rewrite E0|]; exact St2.
  Qed.
End Stop.

(** The result is the k-th estimate, starting from 1/2 in every pixel.  Either all iterations are done or k is the first
    one at which the estimate has settled; the first estimate is compared to the image and the others to the one before. *)
Theorem C94_stops shape image kshape psf start max_size e_cut ct thr n out : length image = length (indices shape) -> length kshape = length shape -> length psf = length (indices kshape) -> Forall Nat.Odd kshape ->
  richardson_lucy shape image kshape psf start max_size e_cut ct thr n = Ok out ->
  exists k est, (k <= n)%nat /\ est 0%nat = repeat (1 # 2) (length image) /\ est k = out /\ (forall j, (j < k)%nat -> step shape image kshape psf start max_size e_cut ct j (est j) (est (S j)))
    /\ (forall j, (S j < k)%nat -> ~ settled shape thr (match j with O => image | _ => est j end) (est (S j)))
    /\ (k = n \/ exists j, k = S j /\ settled shape thr (match j with O => image | _ => est j end) (est k)).
Proof.
  intros L D K O E. unfold richardson_lucy in E. destruct (normalised image) as [ref|] eqn:R; [|discriminate]. cbn [rbind] in E.
  destruct (iterate_stop shape image kshape psf start max_size e_cut ct thr L D K O n 0%nat _ image ref out (map_length _ _) L R E) as (k & est & Hk & E0 & Ek & Steps & NS & Last).
  exists k, est. split; [assumption|]. split; [|auto]. rewrite E0, L. clear. induction (indices shape) as [|a l IH]; cbn; [reflexivity|]. now rewrite IH.
Qed.
Print Assumptions C94_stops.

(** with the default threshold, 0, all iterations are done *)
Theorem C94_all shape image kshape psf start max_size e_cut ct thr n : length image = length (indices shape) -> length kshape = length shape -> length psf = length (indices kshape) -> Forall Nat.Odd kshape -> image <> [] -> nonneg image -> nonneg psf -> thr <= 0 ->
  exists est, est 0%nat = repeat (1 # 2) (length image) /\ richardson_lucy shape image kshape psf start max_size e_cut ct thr n = Ok (est n) /\ forall j, (j < n)%nat -> step shape image kshape psf start max_size e_cut ct j (est j) (est (S j)).
Proof.
  intros L D K O NE Ni Np T. destruct (C45_nonnegative shape image kshape psf start max_size e_cut ct thr n L NE Ni Np) as (out & E & _).
  assert (G := E). unfold richardson_lucy in G. destruct (normalised image) as [ref|] eqn:R; [|discriminate]. cbn [rbind] in G.
  assert (NSt : forall ref cur, nonneg ref -> ~ settled shape thr ref cur).
  { intros rf cur N (r & m & [Gr1 Gr2] & _ & [[_ P]|(Zr & _ & _ & S)]); [lra|]. apply (Qlt_not_le _ _ S). eapply Qle_trans; [exact T|]. apply sumF_nonneg. intros i _. cbn zeta.
    assert (Pr : 0 < r) by (specialize (N r Gr1); destruct (Qlt_le_dec 0 r); [assumption|exfalso; apply Zr; lra]).
    assert (Pi : 0 <= at_index shape rf i). { unfold at_index. destruct (find _ _) as [[j w]|] eqn:F; [|apply Qle_refl]. cbn. apply find_some in F. destruct F as [F _]. apply in_combine_r in F. now apply N. }
    assert (Pq : 0 <= at_index shape rf i / r) by (unfold Qdiv; apply Qmult_le_0_compat; [assumption|]; apply Qinv_le_0_compat; lra).
    destruct (Qeqb_spec (at_index shape rf i / r) 0) as [Z|Z]; [apply Qle_refl|]. unfold Qdiv at 1. apply Qmult_le_0_compat; [|now apply Qinv_le_0_compat]. set (d := at_index shape cur i / m - at_index shape rf i / r). destruct (Qlt_le_dec d 0); [setoid_replace (d * d) with ((- d) * (- d)) by ring|]; apply Qmult_le_0_compat; lra. }
  destruct (C94_stops shape image kshape psf start max_size e_cut ct thr n out L D K O E) as (k & est & Hk & E0 & Ek & Steps & _ & Last).
  exists est. split; [assumption|].
  assert (k = n) as ->; [|split; [congruence|assumption]]. destruct Last as [H|(j & Hj & S)]; [assumption|]. exfalso. revert S. apply NSt. destruct j as [|j]; [assumption|].
  assert (P : forall i, (i <= k)%nat -> nonneg (est i)); [|apply P; lia]. clear - E0 Steps Ni Np L.
  induction i as [|i IH]; intros Hi; [rewrite E0; intros v Hv; apply repeat_spec in Hv; subst; discriminate|]. specialize (IH ltac:(lia)). destruct (Steps i ltac:(lia)) as (up & [Lu U] & C).
  assert (Pat : forall sh l i, nonneg l -> 0 <= at_index sh l i). { clear. intros sh l i N. unfold at_index. destruct (find _ _) as [[j w]|] eqn:F; [|apply Qle_refl]. cbn. apply find_some in F. destruct F as [F _]. apply in_combine_r in F. now apply N. }
  assert (Nu : nonneg up). { apply (nonneg_at shape); [assumption|]. intros p Hp. rewrite U by assumption. apply Qmult_le_0_compat; [now apply Pat|]. apply sumF_nonneg. intros a _. apply Qmult_le_0_compat; [now apply Pat|]. unfold ratio, Qdiv. apply Qmult_le_0_compat; [now apply Pat|]. apply Qinv_le_0_compat.
    assert (0 <= seen shape kshape psf (est i) (index_sub (index_add p a) (middle kshape))) by (unfold seen; apply sumF_nonneg; intros b _; apply Qmult_le_0_compat; now apply Pat). destruct (Qeqb _ 0); [discriminate|assumption]. }
  assert (Cl : cleaned shape max_size e_cut ct up (est (S i)) -> nonneg (est (S i))).
  { intros [Lc Hc]. apply (nonneg_at shape); [assumption|]. intros p Hp. destruct (Qlt_le_dec (at_index shape (est (S i)) p) 0) as [B|B]; [|assumption]. exfalso. destruct (Hc p Hp) as [H1 H2].
    assert (NS : ~ satellite shape up e_cut ct max_size p) by (intros S; rewrite (H1 S) in B; now apply Qlt_irrefl in B). rewrite (H2 NS) in B. apply (Qlt_not_le _ _ B). now apply Pat. }
  destruct start as [s|]; [|now subst]. destruct (s <=? Z.of_nat i)%Z; [auto|now subst].
Qed.
Print Assumptions C94_all.
(** three pixels: of three iterations one is done with a threshold of 2 and two with a threshold of 1 *)
Example C94_ex : let run thr n := richardson_lucy [3]%nat [1; 4; 1] [3]%nat [1 # 4; 1 # 2; 1 # 4] None 0 0 CutAbs thr n in
  run 2 3%nat = run 0 1%nat /\ run 1 3%nat = run 0 2%nat /\ run 2 3%nat <> run 1 3%nat.
Proof. vm_compute. repeat split. discriminate. Qed.
