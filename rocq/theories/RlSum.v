(** C65: the Richardson-Lucy iterations keep the sum of the image; C42: killing satellites leaves none *)
From Verif Require Import Base Arrays PeaksModel PeaksProofs WfmProps PmapioProofs DbProps CorrModel CorrSpec CorrProps PaolinaTracks Graph DeconvModel DeconvClusters RlModel RlSpec RlProps RlIter.
From Coq Require Import Relations Permutation.
Local Open Scope Q_scope.

Lemma sum_at shape im : length im = length (indices shape) -> sumQ im == sumF (at_index shape im) (indices shape).
Proof. intros L. rewrite (list_at shape im L) at 1. unfold sumF. reflexivity. Qed.
Section Sum.
  Variables (shape : list nat) (image : list Q) (kshape : list nat) (psf : list Q).
  Hypothesis sized : length image = length (indices shape).
  Hypothesis dims : length kshape = length shape.
  Hypothesis kernel : length psf = length (indices kshape).
  Hypothesis odd : Forall Nat.Odd kshape.
  (** the sum after an update is that of the image, over the pixels reached by the blurred estimate *)
  Lemma update_sum im : length im = length (indices shape) ->
    sumQ (update shape image kshape psf im) == sumF (fun i => if Qeqb (at_index shape (convolve_same shape im kshape psf) i) 0 then 0 else at_index shape image i) (indices shape).
  Proof using sized dims kernel odd.
    intros L. rewrite (sum_at shape) by now apply update_length. set (x := convolve_same shape im kshape psf). set (B := map2 Qdiv image (protect x)).
    transitivity (sumF (fun j => at_index shape im j * at_index shape (convolve_same shape B kshape (rev psf)) j) (indices shape)).
    - apply sumF_ext. intros j Hj. rewrite update_at by assumption. reflexivity.
    - rewrite adjoint; auto; [|apply (blur_length shape image kshape psf sized)]. fold x. apply sumF_ext. intros i Hi. unfold B, x. rewrite (blur_at shape image kshape psf sized im i Hi). fold x. destruct (Qeqb_spec (at_index shape x i) 0) as [Z|NZ]; [rewrite Z; ring|]. field. assumption.
  Qed.
  Hypothesis image_nonneg : nonneg image.
  Hypothesis psf_nonneg : nonneg psf.
  Lemma update_sum_le im : length im = length (indices shape) -> sumQ (update shape image kshape psf im) <= sumQ image.
  Proof using sized dims kernel odd image_nonneg.
    intros L. rewrite update_sum by assumption. rewrite (sum_at shape image sized). apply sumF_le. intros i Hi. destruct (Qeqb _ 0); [|apply Qle_refl]. now apply at_nonneg.
  Qed.
  Hypothesis centre : 0 < at_index kshape psf (middle kshape).
  Lemma centre_in : exists w, 0 < w /\ In (middle kshape, w) (combine (indices kshape) psf).
  Proof using centre.
    unfold at_index in centre. destruct (find _ _) as [[a w]|] eqn:F; [|exfalso; now apply (Qlt_irrefl 0)]. apply find_some in F. destruct F as [F E]. cbn in E, centre. apply index_eqb_iff in E. subst a. eauto.
  Qed.
  Definition covers (im : list Q) : Prop := good shape im /\ forall i, In i (indices shape) -> 0 < at_index shape image i -> 0 < at_index shape im i.
  Lemma reached im i : good shape im -> In i (indices shape) -> 0 < at_index shape im i -> 0 < at_index shape (convolve_same shape im kshape psf) i.
  Proof using dims psf_nonneg centre.
    intros [L N] Hi P. rewrite convolve_at by assumption. destruct centre_in as (w & Hw & Hin).
    assert (G : at_index shape im (index_sub (index_add i (middle kshape)) (middle kshape)) * w <= sumF (fun aw => at_index shape im (index_sub (index_add i (middle kshape)) (fst aw)) * snd aw) (combine (indices kshape) psf)).
    { apply (sumF_ge_one (fun aw => at_index shape im (index_sub (index_add i (middle kshape)) (fst aw)) * snd aw) _ (middle kshape, w)); [|assumption]. intros [a v] Ha. apply Qmult_le_0_compat; [now apply at_nonneg|]. apply psf_nonneg. cbn. eapply in_combine_r; eassumption. }
    rewrite add_sub in G by (rewrite dims; now apply indices_length). assert (0 < at_index shape im i * w) by (apply Qmult_lt_0_compat; assumption). lra.
  Qed.
  Lemma covers_update im : covers im -> covers (update shape image kshape psf im).
  Proof using sized dims kernel odd image_nonneg psf_nonneg centre.
    intros [G C]. assert (G' := G). destruct G as [L N]. split; [split; [now apply update_length|now apply update_nonneg]|]. intros i Hi P. rewrite update_at by assumption. specialize (C i Hi P). apply Qmult_lt_0_compat; [assumption|].
    set (B := map2 Qdiv image (protect (convolve_same shape im kshape psf))). assert (LB : length B = length (indices shape)) by now apply blur_length. assert (NB : nonneg B) by now apply blur_nonneg.
    rewrite convolve_at by assumption. destruct centre_in as (w & Hw & Hin).
    assert (Hin' : In (middle kshape, w) (combine (indices kshape) (rev psf))). { rewrite mirrored by assumption. apply in_map_iff. exists (middle kshape, w). cbn. split; [now rewrite middle_reflect|]. now apply in_rev in Hin. }
    assert (Gq : at_index shape B (index_sub (index_add i (middle kshape)) (middle kshape)) * w <= sumF (fun aw => at_index shape B (index_sub (index_add i (middle kshape)) (fst aw)) * snd aw) (combine (indices kshape) (rev psf))).
    { apply (sumF_ge_one (fun aw => at_index shape B (index_sub (index_add i (middle kshape)) (fst aw)) * snd aw) _ (middle kshape, w)); [|assumption]. intros [a v] Ha. apply Qmult_le_0_compat; [now apply at_nonneg|]. apply (rev_nonneg psf psf_nonneg). cbn. eapply in_combine_r; eassumption. }
    rewrite add_sub in Gq by (rewrite dims; now apply indices_length). assert (PB : 0 < at_index shape B i). { unfold B. rewrite (blur_at shape image kshape psf sized im i Hi). assert (X := reached im i G' Hi C). destruct (Qeqb_spec (at_index shape (convolve_same shape im kshape psf) i) 0) as [Z|_]; [lra|]. unfold Qdiv. apply Qmult_lt_0_compat; [assumption|]. now apply Qinv_lt_0_compat. }
    assert (0 < at_index shape B i * w) by (apply Qmult_lt_0_compat; assumption). lra.
  Qed.
  Lemma covers_sum im : covers im -> sumQ (update shape image kshape psf im) == sumQ image.
  Proof using sized dims kernel odd image_nonneg psf_nonneg centre.
    intros [G C]. rewrite update_sum by apply G. rewrite (sum_at shape image sized). apply sumF_ext. intros i Hi. destruct (Qeqb_spec (at_index shape (convolve_same shape im kshape psf) i) 0) as [Z|_]; [|reflexivity].
    assert (0 <= at_index shape image i) by now apply at_nonneg. destruct (Qlt_le_dec 0 (at_index shape image i)) as [P|P]; [|lra]. assert (X := reached im i G Hi (C i Hi P)). lra.
  Qed.
End Sum.
(** without satellite killing, the result has the same sum as the image, for every number of iterations *)
Theorem C65_conserved shape image kshape psf max_size e_cut ct thr n out : length image = length (indices shape) -> length kshape = length shape -> length psf = length (indices kshape) -> Forall Nat.Odd kshape ->
  nonneg image -> nonneg psf -> 0 < at_index kshape psf (middle kshape) ->
  richardson_lucy shape image kshape psf None max_size e_cut ct thr (S n) = Ok out -> sumQ out == sumQ image.
Proof.
  intros L D K O Ni Np C E. unfold richardson_lucy in E. destruct (normalised image) as [ref|]; [|discriminate]. cbn [rbind] in E.
  assert (C0 : covers shape image (map (fun _ => 1 # 2) (indices shape))). { split; [apply start_good|]. intros i Hi _. rewrite at_map by assumption. reflexivity. }
  revert E C0. generalize 0%nat (map (fun _ : list Z => 1 # 2) (indices shape)) ref. clear ref. induction n as [|n IH]; intros i im ref E C0; cbn [iterate kill_satellites rbind] in E.
  - destruct (normalised _) as [cur|]; [|discriminate]. cbn [rbind] in E. assert (out = update shape image kshape psf im) by (destruct (below _ _); congruence). subst out. now apply covers_sum.
  - destruct (normalised _) as [cur|]; [|discriminate]. cbn [rbind] in E. destruct (below _ _); [injection E as <-; now apply covers_sum|]. eapply IH; [exact E|]. now apply covers_update.
Qed.
Print Assumptions C65_conserved.
(** with satellite killing the sum does not exceed that of the image *)
Theorem C65_at_most shape image kshape psf start max_size e_cut ct thr n out : length image = length (indices shape) -> length kshape = length shape -> length psf = length (indices kshape) -> Forall Nat.Odd kshape ->
  nonneg image -> nonneg psf -> richardson_lucy shape image kshape psf start max_size e_cut ct thr (S n) = Ok out -> sumQ out <= sumQ image.
Proof.
  intros L D K O Ni Np E. unfold richardson_lucy in E. destruct (normalised image) as [ref|]; [|discriminate]. cbn [rbind] in E.
  assert (Step : forall i im im', good shape im -> kill_satellites shape start max_size e_cut ct i (update shape image kshape psf im) = Ok im' -> sumQ im' <= sumQ image).
  { intros i im im' G Kl. assert (Lu : length (update shape image kshape psf im) = length (indices shape)) by (apply update_length; apply G). destruct (kill_spec shape start max_size e_cut ct i _ im' Lu Kl) as [L' H]. eapply Qle_trans; [|apply (update_sum_le shape image kshape psf L D K O Ni im); apply G].
    rewrite (sum_at shape im' L'), (sum_at shape _ Lu). apply sumF_le. intros j Hj. destruct (H j Hj) as [-> | ->]; [apply Qle_refl|]. apply at_nonneg; [assumption|]. apply update_nonneg; auto; apply G. }
  cbn [iterate] in E. destruct (kill_satellites _ _ _ _ _ _ _) as [im'|] eqn:Kl; [|discriminate]. cbn [rbind] in E. destruct (normalised im') as [cur|]; [|discriminate]. cbn [rbind] in E.
  assert (S0 := Step _ _ _ (start_good shape) Kl). assert (G0 : good shape im') by (eapply step_good; [exact L|exact Ni|exact Np|apply start_good|exact Kl]).
  destruct (below _ _); [injection E as <-; assumption|].
  apply (iterate_inv shape image kshape psf start max_size e_cut ct thr (fun im => good shape im /\ sumQ im <= sumQ image)) in E; [apply E| |auto].
  intros i im im0 [G _] Kl'. split; [eapply step_good; [exact L|exact Ni|exact Np|exact G|exact Kl']|]. eapply Step; eassumption.
Qed.
Print Assumptions C65_at_most.
(** a cross-shaped kernel, and an image with two pixels *)
Definition ex_kernel : list Q := [0; 1 # 8; 0; 1 # 8; 1 # 2; 1 # 8; 0; 1 # 8; 0].
Definition ex_image : list Q := [0; 1; 0; 0; 2; 0; 0; 0; 0].
Example ex_iteration : match richardson_lucy [3; 3]%nat ex_image [3; 3]%nat ex_kernel None 0 0 CutAbs 0 1 with Ok out => Qeq_bool (sumQ out) 3 = true /\ nth 4 out 0 == (8 # 7) | Err _ => False end.
Proof. vm_compute. split; reflexivity. Qed.
Example ex_hypotheses : Forall Nat.Odd [3; 3]%nat /\ nonneg ex_image /\ nonneg ex_kernel /\ 0 < at_index [3; 3]%nat ex_kernel (middle [3; 3]%nat).
Proof.
  split; [repeat constructor; now exists 1%nat|]. split; [|split; [|reflexivity]]; intros v Hv; cbn in Hv; repeat (destruct Hv as [<-|Hv]; [discriminate|]); destruct Hv.
Qed.

(** ---- killing satellites leaves none ---- *)
Section Killed.
  Variables (shape : list nat) (im : list Q) (e_cut : Q) (max_size : Z) (mask : list bool).
  Hypothesis sized : length im = length (indices shape).
  Hypothesis masked : generate_satellite_mask shape im max_size e_cut CutAbs = Ok mask.
  Hypothesis positive_cut : 0 < e_cut.
  Let killed := map2 (fun (b : bool) v => if b then 0 else v) mask im.
  Notation lit0 := (lit shape im e_cut CutAbs). Notation lit1 := (lit shape killed e_cut CutAbs).
  Notation con0 := (connected shape im e_cut CutAbs). Notation con1 := (connected shape killed e_cut CutAbs).
  Notation sat0 := (satellite shape im e_cut CutAbs max_size). Notation sat1 := (satellite shape killed e_cut CutAbs max_size).
  Lemma lit_killed i : lit1 i <-> lit0 i /\ ~ sat0 i.
  Proof using sized masked positive_cut.
    destruct (C42_mask _ _ _ _ _ _ sized masked) as [Lm M].
    assert (K : forall n b v, nth_error mask n = Some b -> nth_error im n = Some v -> nth_error killed n = Some (if b then 0 else v)).
    { unfold killed. clear. revert im. induction mask as [|b0 m IH]; intros [|v0 l] [|n] b v H1 H2; cbn in *; try discriminate; [injection H1 as ->; injection H2 as ->; reflexivity|eauto]. }
    assert (X : forall n, (n < length im)%nat -> exists b v, nth_error mask n = Some b /\ nth_error im n = Some v).
    { intros n Hn. destruct (nth_error mask n) as [b|] eqn:B; [|apply nth_error_None in B; lia]. destruct (nth_error im n) as [v|] eqn:V; [|apply nth_error_None in V; lia]. eauto. }
    split.
    - intros (w & (n & Hn & Hw) & Hc). assert (Hl : (n < length im)%nat) by (rewrite sized; apply nth_error_Some; congruence). destruct (X n Hl) as (b & v & Hb & Hv). rewrite (K n b v Hb Hv) in Hw. injection Hw as <-. destruct b; [lra|]. split; [exists v; split; [exists n; auto|assumption]|]. intros S. apply (M n i Hn) in S. congruence.
    - intros [(v & (n & Hn & Hv) & Hc) S]. assert (Hl : (n < length im)%nat) by (apply nth_error_Some; congruence). destruct (X n Hl) as (b & v' & Hb & Hv'). destruct b; [exfalso; apply S; now apply (M n i Hn)|]. exists v. split; [|assumption]. exists n. split; [assumption|]. rewrite (K n false v' Hb Hv'). congruence.
  Qed.
  Lemma touch_sym u v : touch u v -> touch v u.
  Proof using Type.
    clear. intros [F H]. split.
    - clear H. induction F as [|a b l m R F IH]; constructor; [lia|assumption].
    - assert (E : forall l m : list Z, length (filter (fun p => negb (Z.eqb (fst p) (snd p))) (combine l m)) = length (filter (fun p => negb (Z.eqb (fst p) (snd p))) (combine m l))); [|now rewrite E].
      clear. induction l as [|a l IH]; intros [|b m]; cbn; try reflexivity. rewrite (Z.eqb_sym b a). destruct (negb _); cbn; now rewrite IH.
  Qed.
  Lemma con0_sym u v : con0 u v -> con0 v u.
  Proof using Type. intros C. induction C as [x y (H1 & H2 & H3)|x|x y z _ IH1 _ IH2]; [apply rt_step; auto using touch_sym|apply rt_refl|eapply rt_trans; eassumption]. Qed.
  Lemma con0_lit u v : con0 u v -> lit0 u -> lit0 v.
  Proof using Type. intros C. induction C as [x y (H1 & H2 & H3)|x|x y z _ IH1 _ IH2]; auto. Qed.
  Lemma sat0_con u v : con0 u v -> sat0 u -> sat0 v.
  Proof using Type.
    intros C (L & (dep & N & D & S) & (j & Lj & Cj)). split; [eapply con0_lit; eassumption|]. split.
    - exists dep. split; [assumption|]. split; [|assumption]. intros k. rewrite D. split; intros [H1 H2]; (split; [assumption|]); eapply rt_trans; try eassumption. now apply con0_sym.
    - exists j. split; [assumption|]. intros H. apply Cj. eapply rt_trans; eassumption.
  Qed.
  Lemma con1_con0 u v : con1 u v -> con0 u v.
  Proof using sized masked positive_cut. intros C. induction C as [x y (H1 & H2 & H3)|x|x y z _ IH1 _ IH2]; [|apply rt_refl|eapply rt_trans; eassumption]. apply lit_killed in H1. apply lit_killed in H2. apply rt_step. tauto. Qed.
  Lemma con0_con1 u v : con0 u v -> lit1 u -> con1 u v.
  Proof using sized masked positive_cut.
    intros C. apply clos_rt_rt1n in C. induction C as [x|x y z (H1 & H2 & H3) C IH]; intros L; [apply rt_refl|].
    assert (Ly : lit1 y). { apply lit_killed. split; [assumption|]. apply lit_killed in L. destruct L as [_ L]. intros S. apply L. eapply sat0_con; [|exact S]. apply rt_step. auto using touch_sym. }
    eapply rt_trans; [apply rt_step; split; [exact L|]; split; [exact Ly|assumption]|]. now apply IH.
  Qed.
  Lemma no_satellite i : ~ sat1 i.
  Proof using sized masked positive_cut.
    intros (L & (dep & N & D & S) & (j & Lj & Cj)). assert (L' := L). apply lit_killed in L'. destruct L' as [L0 NS]. apply NS. split; [assumption|]. split.
    - exists dep. split; [assumption|]. split; [|assumption]. intros k. rewrite D. split; intros [H1 H2].
      + split; [now apply lit_killed in H1|now apply con1_con0].
      + assert (C1 := con0_con1 _ _ H2 L). split; [|assumption]. apply lit_killed. split; [assumption|]. intros S'. apply NS. eapply sat0_con; [apply con0_sym; exact H2|exact S'].
    - exists j. split; [now apply lit_killed in Lj|]. intros H. apply Cj. now apply con0_con1.
  Qed.
End Killed.
(** after the satellites above a positive absolute cut have been removed there are none *)
Theorem C42_killed shape im e_cut max_size mask : length im = length (indices shape) -> 0 < e_cut -> generate_satellite_mask shape im max_size e_cut CutAbs = Ok mask ->
  forall i, ~ satellite shape (map2 (fun (b : bool) v => if b then 0 else v) mask im) e_cut CutAbs max_size i.
Proof. intros L P M i. now apply no_satellite. Qed.
Print Assumptions C42_killed.
(** with satellite killing from the first iteration, the deconvolved image has no satellites *)
Theorem C45_satellites shape image kshape psf s max_size e_cut thr n out : length image = length (indices shape) -> (s <= 0)%Z -> 0 < e_cut ->
  richardson_lucy shape image kshape psf (Some s) max_size e_cut CutAbs thr (S n) = Ok out -> forall i, ~ satellite shape out e_cut CutAbs max_size i.
Proof.
  intros L Hs P E. unfold richardson_lucy in E. destruct (normalised image) as [ref|]; [|discriminate]. cbn [rbind] in E.
  assert (Step : forall i im im', length im = length (indices shape) -> kill_satellites shape (Some s) max_size e_cut CutAbs i (update shape image kshape psf im) = Ok im' -> length im' = length (indices shape) /\ forall j, ~ satellite shape im' e_cut CutAbs max_size j).
  { intros i im im' Li K. split; [now apply (kill_spec shape (Some s) max_size e_cut CutAbs _ _ _ (update_length shape image kshape psf im Li) K)|]. unfold kill_satellites in K. destruct (Z.leb_spec s (Z.of_nat i)); [|lia]. destruct (generate_satellite_mask _ _ _ _ _) as [m|] eqn:M; [|discriminate]. cbn [rbind] in K. injection K as <-. apply C42_killed; auto. now apply update_length. }
  cbn [iterate] in E. destruct (kill_satellites _ _ _ _ _ _ _) as [im'|] eqn:Kl; [|discriminate]. cbn [rbind] in E. destruct (normalised im') as [cur|]; [|discriminate]. cbn [rbind] in E. apply Step in Kl; [|apply map_length]. destruct (below _ _); [injection E as <-; apply Kl|].
  apply (iterate_inv shape image kshape psf (Some s) max_size e_cut CutAbs thr (fun im => length im = length (indices shape) /\ forall j, ~ satellite shape im e_cut CutAbs max_size j)) in E; [apply E| |assumption].
  intros i im im0 [Li _] K. eapply Step; eassumption.
Qed.
Print Assumptions C45_satellites.
(** a kernel of even size does not keep the sum: the mirrored convolution is shifted *)
Theorem C65_even_refuted : exists shape image kshape psf out, length image = length (indices shape) /\ nonneg image /\ nonneg psf /\ 0 < at_index kshape psf (middle kshape)
  /\ richardson_lucy shape image kshape psf None 0 0 CutAbs 0 1 = Ok out /\ ~ sumQ out == sumQ image.
Proof.
  exists [2]%nat, [1; 0], [2]%nat, [1 # 2; 1 # 4]. eexists. split; [reflexivity|]. split; [|split; [|split; [reflexivity|split; [reflexivity|]]]].
  - intros v Hv; cbn in Hv; repeat (destruct Hv as [<-|Hv]; [discriminate|]); destruct Hv.
  - intros v Hv; cbn in Hv; repeat (destruct Hv as [<-|Hv]; [discriminate|]); destruct Hv.
  - intros C. vm_compute in C. discriminate.
Qed.
Print Assumptions C65_even_refuted.
