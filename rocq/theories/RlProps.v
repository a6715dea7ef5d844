(** C42: the satellite mask *)
From Verif Require Import Base Arrays PeaksModel PeaksProofs WfmProps PmapioProofs DbProps CorrModel CorrSpec CorrProps PaolinaTracks Graph DeconvModel DeconvClusters RlModel RlSpec.
From Coq Require Import Relations Permutation.
Local Open Scope Q_scope.

Lemma index_eqb_iff a b : index_eqb a b = true <-> a = b.
Proof. unfold index_eqb. destruct (list_eq_dec Z.eq_dec a b); split; congruence. Qed.
Lemma indices_length shape i : In i (indices shape) -> length i = length shape.
Proof.
  revert i. induction shape as [|n s IH]; cbn; intros i H; [destruct H as [<-|[]]; reflexivity|]. apply in_flat_map in H. destruct H as (k & _ & H). apply in_map_iff in H. destruct H as (j & <- & H). cbn. now rewrite (IH j H).
Qed.
Lemma indices_nodup shape : NoDup (indices shape).
Proof.
  induction shape as [|n s IH]; cbn; [repeat constructor; auto|]. generalize (seq_NoDup n 0). generalize (seq 0 n). intros l N. induction N as [|k l Hk N IHl]; cbn; [constructor|].
  assert (M : NoDup (map (cons (Z.of_nat k)) (indices s))). { clear - IH. induction IH as [|a l Ha N IH]; cbn; constructor; [|assumption]. intros C. apply in_map_iff in C. destruct C as (b & E & Hb). injection E as ->. contradiction. }
  revert M. assert (D : forall i, In i (map (cons (Z.of_nat k)) (indices s)) -> ~ In i (flat_map (fun i => map (cons (Z.of_nat i)) (indices s)) l)).
  { intros i Hi C. apply in_map_iff in Hi. destruct Hi as (j & <- & _). apply in_flat_map in C. destruct C as (k' & Hk' & C). apply in_map_iff in C. destruct C as (j' & E & _). injection E as E _. apply Nat2Z.inj in E. subst. contradiction. }
  revert D. generalize (map (cons (Z.of_nat k)) (indices s)). intros m D M. induction M as [|a m Ha M IHm]; cbn; [assumption|]. constructor; [|apply IHm; intros; apply D; now right]. rewrite in_app_iff. intros [C|C]; [contradiction|]. apply (D a); [now left|assumption].
Qed.
Lemma neighbours_touch u v : length u = length v -> (neighbours u v = true <-> touch u v).
Proof.
  intros L. unfold neighbours, touch. rewrite andb_true_iff, forallb_forall, Z.leb_le.
  assert (A : (forall x, In x (map Z.abs (index_sub u v)) -> (x <=? 1)%Z = true) <-> Forall2 (fun a b => Z.abs (a - b) <= 1)%Z u v).
  { revert v L. induction u as [|a u IH]; intros [|b v] L; cbn in L; try discriminate; [split; [constructor|intros _ x []]|]. unfold index_sub, map2 in *. cbn. split.
    - intros H. constructor; [apply Z.leb_le, H; now left|]. apply IH; [lia|]. intros x Hx. apply H. now right.
    - intros H x [<-|Hx]; inversion H; subst; [now apply Z.leb_le|]. now apply (proj2 (IH v ltac:(lia))). }
  rewrite A. assert (B : Forall2 (fun a b => Z.abs (a - b) <= 1)%Z u v -> fold_right Z.add 0%Z (map Z.abs (index_sub u v)) = Z.of_nat (length (filter (fun p => negb (Z.eqb (fst p) (snd p))) (combine u v)))).
  { intros F. clear A L. induction F as [|a b u v H F IH]; [reflexivity|]. unfold index_sub, map2 in *. cbn. rewrite IH. destruct (Z.eqb_spec a b); cbn [negb length]; lia. }
  split; intros [H1 H2]; (split; [assumption|]); rewrite (B H1) in *; lia.
Qed.
Lemma neighbours_sym u v : neighbours u v = true -> neighbours v u = true.
Proof.
  assert (E : map Z.abs (index_sub u v) = map Z.abs (index_sub v u)); [|unfold neighbours; now rewrite E]. revert v. induction u as [|a u IH]; intros [|b v]; try reflexivity. unfold index_sub, map2 in *. cbn. rewrite IH. f_equal. lia.
Qed.

Lemma in_np_where_error {A} (p : A -> bool) l c : In c (np_where p l) <-> exists k, nth_error l c = Some k /\ p k = true.
Proof.
  destruct l as [|d0 l0] eqn:L; [split; [intros []|intros (k & H & _); destruct c; discriminate]|]. rewrite <- L. rewrite (in_np_where p l d0 c) || rewrite (in_np_where p c l d0) || rewrite in_np_where with (d := d0). split.
  - intros [H1 H2]. exists (nth c l d0). split; [now apply nth_error_nth'|assumption].
  - intros (k & H1 & H2). assert (c < length l)%nat by (apply nth_error_Some; congruence). split; [assumption|]. now rewrite (nth_error_nth _ _ d0 H1).
Qed.
Section Mask.
  Variables (shape : list nat) (im : list Q) (e_cut : Q) (ct : cut_type) (mask : list bool).
  Hypothesis sized : length im = length (indices shape).
  Hypothesis masked : above_cut im e_cut ct = Ok mask.
  Let nodes := pick_where mask (indices shape).
  Let comps := components neighbours nodes.
  Lemma mask_length : length mask = length im.
  Proof using shape masked.
    unfold above_cut in masked. destruct ct; [injection masked as <-; apply map_length|]. destruct (max_value im); [|discriminate]. injection masked as <-. apply map_length.
  Qed.
  Lemma mask_lit n i : nth_error (indices shape) n = Some i -> (nth_error mask n = Some true <-> lit shape im e_cut ct i).
  Proof using sized masked.
    intros Hi. assert (exists v, nth_error im n = Some v) as [v Hv]. { destruct (nth_error im n) as [v|] eqn:E; [eauto|]. apply nth_error_None in E. assert (n < length (indices shape))%nat by (apply nth_error_Some; congruence). lia. }
    assert (U : forall w, pixel shape im i w -> w = v). { intros w (m & H1 & H2). assert (m = n); [|congruence]. assert (N := indices_nodup shape). rewrite NoDup_nth_error in N. apply N; [apply nth_error_Some; congruence|congruence]. }
    unfold above_cut in masked. destruct ct.
    - injection masked as <-. rewrite (map_nth_error _ _ _ Hv). unfold lit. split.
      + intros H. injection H as H. exists v. split; [exists n; auto|now apply Qleb_le].
      + intros (w & Hw & H). rewrite (U w Hw) in H. f_equal. now apply Qleb_le.
    - unfold max_value in masked. assert (G := max_greatest im). destruct (maxQ im) as [m|]; [|discriminate]. cbn [rbind] in masked. injection masked as <-. rewrite (map_nth_error _ _ _ Hv). unfold lit. split.
      + intros H. injection H as H. exists v. split; [exists n; auto|]. exists m. split; [assumption|]. destruct (Qeqb_spec m 0); [discriminate|]. split; [assumption|now apply Qleb_le].
      + intros (w & Hw & m' & G' & NZ & H). rewrite (U w Hw) in H. assert (m == m'). { destruct G as [G1 G2], G' as [G1' G2']. assert (m <= m') by now apply G2'. assert (m' <= m) by now apply G2. lra. }
        destruct (Qeqb_spec m 0) as [Z|_]; [exfalso; apply NZ; lra|]. f_equal. apply Qleb_le. rewrite H0. assumption.
  Qed.
  Lemma in_nodes i : In i nodes <-> lit shape im e_cut ct i.
  Proof using sized masked.
    assert (P : forall (m : list bool) (l : list (list Z)), length m = length l -> (In i (pick_where m l) <-> exists n, nth_error l n = Some i /\ nth_error m n = Some true)).
    { clear. induction m as [|b m IH]; intros [|a l] L; cbn in L; try discriminate; [split; [intros []|intros ([|n] & H & _); discriminate]|]. unfold pick_where in *. cbn. injection L as L. destruct b; cbn; rewrite (IH l L); split.
      - intros [<-|(n & H)]; [exists 0%nat; auto|exists (S n); auto].
      - intros ([|n] & H1 & H2); cbn in *; [left; congruence|right; eauto].
      - intros (n & H). exists (S n). auto.
      - intros ([|n] & H1 & H2); cbn in *; [discriminate|eauto]. }
    unfold nodes. rewrite P by (rewrite mask_length; assumption). split.
    - intros (n & H1 & H2). now apply (mask_lit n i).
    - intros H. assert (H' := H). destruct H' as (v & (n & Hn & _) & _). exists n. split; [assumption|]. now apply mask_lit with (i := i).
  Qed.
  Lemma nodes_nodup : NoDup nodes.
  Proof.
    unfold nodes. generalize (indices_nodup shape). generalize (indices shape). clear. intros l N. revert mask. induction N as [|a l Ha N IH]; intros [|b m]; unfold pick_where; cbn; try constructor. destruct b; cbn; [|apply IH]. constructor; [|apply IH]. intros C. apply Ha. clear - C. revert l C. induction m as [|b m IH]; intros [|x l]; cbn; try tauto. destruct b; cbn; [intros [H|H]; auto|auto].
  Qed.
  Lemma nodes_index i : In i nodes -> In i (indices shape).
  Proof using sized masked. rewrite in_nodes. intros (v & (n & H & _) & _). eapply nth_error_In; eassumption. Qed.
  Lemma joined_connected u v : joined neighbours nodes u v <-> connected shape im e_cut ct u v.
  Proof using sized masked.
    split; intros C; (induction C as [x y (Hx & Hy & E)|x|x y z _ IH1 _ IH2]; [apply rt_step|apply rt_refl|eapply rt_trans; eassumption]).
    - split; [now apply in_nodes|]. split; [now apply in_nodes|]. apply neighbours_touch; [|assumption]. rewrite (indices_length shape x), (indices_length shape y); auto using nodes_index.
    - apply in_nodes in Hx. apply in_nodes in Hy. split; [assumption|]. split; [assumption|]. apply neighbours_touch; [|assumption]. rewrite (indices_length shape x), (indices_length shape y); auto using nodes_index.
  Qed.
  Lemma comps_spec : are_components neighbours nodes comps.
  Proof. apply components_spec; [exact neighbours_sym|exact nodes_nodup]. Qed.
  Lemma comps_nodup : NoDup (concat comps).
  Proof. destruct comps_spec as (P & _). eapply Permutation_NoDup; [symmetry; exact P|exact nodes_nodup]. Qed.
  Lemma label_zero i : label_of comps i = 0%nat <-> ~ In i nodes.
  Proof.
    destruct comps_spec as (P & _). unfold label_of. destruct (np_where _ comps) as [|c l] eqn:W.
    - split; [|reflexivity]. intros _ C. eapply Permutation_in in C; [|symmetry; exact P]. apply in_concat in C. destruct C as (k & Hk & Hi). apply In_nth_error in Hk. destruct Hk as [c Hc].
      assert (X : In c (np_where (existsb (index_eqb i)) comps)) by (apply in_np_where_error; exists k; split; [assumption|]; apply existsb_exists; exists i; split; [assumption|now apply index_eqb_iff]). rewrite W in X. destruct X.
    - split; [discriminate|]. intros N. exfalso. apply N. assert (X : In c (np_where (existsb (index_eqb i)) comps)) by (rewrite W; now left). apply in_np_where_error in X. destruct X as (k & Hk & X). apply existsb_exists in X. destruct X as (j & Hj & X). apply index_eqb_iff in X. subst j. eapply Permutation_in; [exact P|]. apply in_concat. exists k. split; [eapply nth_error_In; eassumption|assumption].
  Qed.
  Lemma label_succ i c : label_of comps i = S c <-> exists k, nth_error comps c = Some k /\ In i k.
  Proof.
    unfold label_of. split.
    - destruct (np_where _ comps) as [|c' l] eqn:W; [discriminate|]. intros E. injection E as ->. assert (X : In c (np_where (existsb (index_eqb i)) comps)) by (rewrite W; now left). apply in_np_where_error in X. destruct X as (k & Hk & X). apply existsb_exists in X. destruct X as (j & Hj & X). apply index_eqb_iff in X. subst j. eauto.
    - intros (k & Hk & Hi). assert (X : In c (np_where (existsb (index_eqb i)) comps)) by (apply in_np_where_error; exists k; split; [assumption|]; apply existsb_exists; exists i; split; [assumption|now apply index_eqb_iff]).
      destruct (np_where _ comps) as [|c' l] eqn:W; [destruct X|]. f_equal. assert (X' : In c' (np_where (existsb (index_eqb i)) comps)) by (rewrite W; now left). apply in_np_where_error in X'. destruct X' as (k' & Hk' & X'). apply existsb_exists in X'. destruct X' as (j & Hj & X'). apply index_eqb_iff in X'. subst j. eapply (same_block comps i c' c); eauto using comps_nodup.
  Qed.
  Let labels := map (label_of comps) (indices shape).
  Lemma label_count c k : nth_error comps c = Some k -> count (Nat.eqb (S c)) labels = length k.
  Proof using sized masked.
    intros Hk. unfold count, labels. assert (E : forall l, length (filter (Nat.eqb (S c)) (map (label_of comps) l)) = length (filter (fun i => Nat.eqb (S c) (label_of comps i)) l)) by (induction l as [|a l IH]; cbn [map filter]; [reflexivity|]; destruct (S c =? label_of comps a)%nat; cbn [length]; now rewrite IH). rewrite E.
    apply Permutation_length, NoDup_Permutation.
    - apply NoDup_filter, indices_nodup.
    - assert (N := comps_nodup). apply nth_error_In in Hk. apply in_split in Hk. destruct Hk as (l1 & l2 & Ec). rewrite Ec, concat_app in N. cbn in N. clear - N. apply NoDup_app_remove_l in N. now apply NoDup_app_remove_r in N.
    - intros i. rewrite filter_In, Nat.eqb_eq. split.
      + intros [_ H]. symmetry in H. apply label_succ in H. destruct H as (k' & Hk' & Hi). congruence.
      + intros Hi. split; [|symmetry; apply label_succ; eauto]. apply nodes_index. destruct comps_spec as (P & _). eapply Permutation_in; [exact P|]. apply in_concat. exists k. split; [eapply nth_error_In; eassumption|assumption].
  Qed.
  Lemma labels_max : maxN labels = length comps.
  Proof using sized masked.
    assert (M : forall l, (forall x, In x l -> x <= maxN l)%nat /\ (l <> [] -> In (maxN l) l)).
    { unfold maxN. induction l as [|a l [IH1 IH2]]; cbn; [split; [intros x []|congruence]|]. split; [intros x [<-|Hx]; [lia|specialize (IH1 x Hx); lia]|]. intros _. destruct l as [|b l]; [left; cbn; lia|]. specialize (IH2 ltac:(discriminate)). destruct (Nat.max_spec a (fold_right Nat.max 0%nat (b :: l))) as [[_ ->]|[_ ->]]; auto. }
    destruct (M labels) as [M1 M2]. apply Nat.le_antisymm.
    - destruct labels as [|l0 ls] eqn:L; [cbn; lia|]. rewrite <- L in *. specialize (M2 ltac:(congruence)). unfold labels in M2 at 2. apply in_map_iff in M2. destruct M2 as (i & E & _). destruct (maxN labels) as [|c]; [lia|]. apply label_succ in E. destruct E as (k & Hk & _). assert (c < length comps)%nat by (apply nth_error_Some; congruence). lia.
    - destruct (length comps) as [|c] eqn:L; [lia|]. destruct (nth_error comps c) as [k|] eqn:K; [|apply nth_error_None in K; lia]. apply M1. destruct comps_spec as (P & NE & _). assert (Ik := nth_error_In _ _ K). destruct k as [|i k]; [exfalso; now apply (NE [])|]. unfold labels. apply in_map_iff. exists i. split; [apply label_succ; exists (i :: k); split; [assumption|now left]|]. apply nodes_index. eapply Permutation_in; [exact P|]. apply in_concat. exists (i :: k). split; [assumption|now left].
  Qed.
  Lemma sizes_length : length (bincount labels) = match labels with [] => 0%nat | _ => S (length comps) end.
  Proof using sized masked. rewrite <- labels_max. unfold bincount. destruct labels; [reflexivity|]. now rewrite map_length, seq_length. Qed.
  Lemma satellite_iff max_size i : In i (indices shape) ->
    (satellite shape im e_cut ct max_size i <-> (2 <= length comps)%nat /\ exists c k, nth_error comps c = Some k /\ In i k /\ (Z.of_nat (length k) < max_size)%Z).
  Proof using sized masked.
    intros Hi. destruct comps_spec as (P & NE & S).
    assert (inN : forall k j, In k comps -> In j k -> In j nodes) by (intros k j Hk Hj; eapply Permutation_in; [exact P|]; apply in_concat; eauto).
    assert (CL : forall c k, nth_error comps c = Some k -> In i k -> forall j, In j k <-> lit shape im e_cut ct j /\ connected shape im e_cut ct i j).
    { intros c k Hk Ik j. assert (Ck := nth_error_In _ _ Hk). split.
      - intros Hj. split; [apply in_nodes; eauto|]. apply joined_connected. apply S; eauto. exists k. auto.
      - intros [Lj Cj]. apply joined_connected in Cj. apply in_nodes in Lj. apply S in Cj; eauto. destruct Cj as (k' & Hk' & I1 & I2). assert (k = k'); [|now subst]. eapply same_block_eq; [exact comps_nodup| | |exact Ik|exact I1]; assumption. }
    unfold satellite. split.
    - intros (Li & (dep & Nd & Hd & Ld) & (j & Lj & Cj)). apply in_nodes in Li. assert (Li' := Li). eapply Permutation_in in Li'; [|symmetry; exact P]. apply in_concat in Li'. destruct Li' as (k & Hk & Ik). apply In_nth_error in Hk. destruct Hk as [c Hc]. split.
      + apply in_nodes in Lj. assert (Lj' := Lj). eapply Permutation_in in Lj'; [|symmetry; exact P]. apply in_concat in Lj'. destruct Lj' as (k' & Hk' & Jk'). apply In_nth_error in Hk'. destruct Hk' as [c' Hc'].
        assert (c <> c'). { intros <-. apply Cj. apply joined_connected, S; auto. exists k. split; [eapply nth_error_In; eassumption|]. split; [assumption|congruence]. }
        assert (c < length comps)%nat by (apply nth_error_Some; congruence). assert (c' < length comps)%nat by (apply nth_error_Some; congruence). lia.
      + exists c, k. split; [assumption|]. split; [assumption|]. assert (length k = length dep) as ->; [|assumption]. apply Permutation_length, NoDup_Permutation; [|assumption|].
        * assert (N := comps_nodup). assert (Ck := nth_error_In _ _ Hc). apply in_split in Ck. destruct Ck as (l1 & l2 & Ec). rewrite Ec, concat_app in N. cbn in N. clear - N. apply NoDup_app_remove_l in N. now apply NoDup_app_remove_r in N.
        * intros x. rewrite (CL c k Hc Ik x), Hd. reflexivity.
    - intros (L2 & c & k & Hc & Ik & Lk). assert (Ck := nth_error_In _ _ Hc). split; [apply in_nodes; eauto|]. split.
      + exists k. split; [|split; [exact (CL c k Hc Ik)|assumption]]. assert (N := comps_nodup). apply in_split in Ck. destruct Ck as (l1 & l2 & Ec). rewrite Ec, concat_app in N. cbn in N. clear - N. apply NoDup_app_remove_l in N. now apply NoDup_app_remove_r in N.
      + assert (X : exists c', c' <> c /\ (c' < length comps)%nat) by (destruct c; [exists 1%nat|exists 0%nat]; lia). destruct X as (c' & D & Lc'). destruct (nth_error comps c') as [k'|] eqn:K; [|apply nth_error_None in K; lia]. assert (Ck' := nth_error_In _ _ K). destruct k' as [|j k']; [exfalso; now apply (NE [])|]. exists j. split; [apply in_nodes; eapply inN; [exact Ck'|now left]|].
        intros C. apply D. apply (CL c k Hc Ik j) in C || (assert (In j k) by (apply (CL c k Hc Ik); split; [apply in_nodes; eapply inN; [exact Ck'|now left]|assumption])). eapply (same_block comps j); [exact comps_nodup|exact K|exact Hc|now left|assumption].
  Qed.
End Mask.
(** the mask marks exactly the satellites *)
Theorem C42_mask shape im max_size e_cut ct mask : length im = length (indices shape) -> generate_satellite_mask shape im max_size e_cut ct = Ok mask ->
  length mask = length im /\ forall n i, nth_error (indices shape) n = Some i -> (nth_error mask n = Some true <-> satellite shape im e_cut ct max_size i).
Proof.
  intros L. unfold generate_satellite_mask. destruct (above_cut im e_cut ct) as [m|] eqn:M; [|discriminate]. cbn [rbind]. unfold collect_component_sizes.
  set (comps := components neighbours (pick_where m (indices shape))). set (labels := map (label_of comps) (indices shape)). assert (SL := sizes_length shape im e_cut ct m L M). fold comps in SL. fold labels in SL. assert (LM := labels_max shape im e_cut ct m L M). fold comps in LM. fold labels in LM.
  assert (LL : length labels = length im) by (unfold labels; rewrite map_length; auto).
  destruct (Nat.leb_spec (length (bincount labels)) 2) as [B|B].
  - intros E. injection E as <-. split; [apply map_length|]. intros n i Hi. split; [intros H; exfalso|].
    + rewrite nth_error_map in H. destruct (nth_error im n); discriminate.
    + intros S. exfalso. apply (satellite_iff shape im e_cut ct m L M) in S; [|eapply nth_error_In; eassumption]. fold comps in S. destruct S as [S _]. rewrite SL in B. destruct labels eqn:EL; [|lia]. destruct (indices shape); [destruct n; discriminate|discriminate].
  - intros E. injection E as <-. split; [now rewrite map_length|]. intros n i Hi. unfold labels at 2. rewrite (map_nth_error _ n (map (label_of comps) (indices shape)) (map_nth_error _ _ _ Hi)). cbv beta. rewrite SL in B.
    assert (C2 : (2 <= length comps)%nat) by (destruct labels; lia).
    rewrite (satellite_iff shape im e_cut ct m L M) by (eapply nth_error_In; eassumption). fold comps.
    assert (T : forall c k, nth_error comps c = Some k -> nth (S c) (upd 0 false (map (fun s => (Z.of_nat s <? max_size)%Z) (bincount labels))) false = (Z.of_nat (length k) <? max_size)%Z).
    { intros c k Hk. rewrite nth_upd by (rewrite map_length; lia). cbn [Nat.eqb]. assert (Lc : (c < length comps)%nat) by (apply nth_error_Some; congruence).
      assert (NS : nth_error (bincount labels) (S c) = Some (length k)). { unfold bincount. destruct labels as [|l0 ls] eqn:EL; [lia|]. rewrite <- EL in *. rewrite nth_error_map. rewrite (nth_error_nth' _ 0%nat) by (rewrite seq_length; rewrite LM; lia). rewrite seq_nth by (rewrite LM; lia). cbn [option_map plus]. f_equal. apply (label_count shape im e_cut ct m L M). assumption. }
      apply nth_error_nth. now rewrite (map_nth_error _ _ _ NS). }
    destruct (label_of comps i) as [|c] eqn:Lb.
    + split; [|intros (_ & c & k & Hk & Ik & _)].
      * intros H. exfalso. destruct (bincount labels); cbn in H; discriminate.
      * exfalso. assert (X : label_of comps i = S c) by (apply label_succ; eauto). congruence.
    + assert (X := proj1 (label_succ shape m i c) Lb). fold comps in X. destruct X as (k & Hk & Ik). assert (T' := T c k Hk). cbn [upd] in T'. rewrite T'. split.
      * intros H. injection H as H. apply Z.ltb_lt in H. split; [assumption|]. exists c, k. auto.
      * intros (_ & c' & k' & Hk' & Ik' & Lk). f_equal. apply Z.ltb_lt. assert (c' = c); [|congruence]. assert (Y : label_of comps i = S c') by (apply label_succ; eauto). congruence.
Qed.
Print Assumptions C42_mask.
(** a mask is always obtained, except with a relative cut of an image without pixels *)
Theorem C42_total shape im max_size e_cut ct : ct = CutAbs \/ im <> [] -> exists mask, generate_satellite_mask shape im max_size e_cut ct = Ok mask.
Proof.
  intros H. unfold generate_satellite_mask. assert (E : exists m, above_cut im e_cut ct = Ok m).
  { unfold above_cut, max_value. destruct ct; [eexists; reflexivity|]. destruct H as [H|H]; [discriminate|]. destruct im; [congruence|]. eexists. reflexivity. }
  destruct E as [m ->]. cbn [rbind]. destruct (collect_component_sizes shape m) as [labels sizes]. destruct (_ <=? 2)%nat; eexists; reflexivity.
Qed.
Print Assumptions C42_total.
(** three deposits, of which two of less than three pixels; the one of three pixels is joined by a corner *)
Example ex_satellites : generate_satellite_mask [3; 4]%nat [1;0;0;1; 1;0;0;0; 0;1;0;1] 3 (1 # 2) CutAbs = Ok [false; false; false; true; false; false; false; false; false; false; false; true].
Proof. reflexivity. Qed.
