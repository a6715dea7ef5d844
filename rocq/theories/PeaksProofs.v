(** Lemmas on peak splitting, rebinning and peak objects *)
From Verif Require Import Base PeaksModel PeaksSpec.
Local Open Scope nat_scope.

(** ---------- split_in_peaks ---------- *)
Local Arguments split_in_peaks : simpl never.
Lemma where_from_S {A} (p : A -> bool) l i : where_from (S i) p l = map S (where_from i p l).
Proof. revert i; induction l as [|a l IH]; intros i; [reflexivity|]. cbn. rewrite IH. now destruct (p a). Qed.

Lemma slice_S {A} lo hi (a : A) l : slice (S lo) (S hi) (a :: l) = slice lo hi l.
Proof. reflexivity. Qed.

Lemma split_from_S {A} (a : A) l cuts lo : split_from (S lo) (a :: l) (map S cuts) = split_from lo l cuts.
Proof. revert lo; induction cuts as [|c cuts IH]; intros lo; cbn [split_from map length]; rewrite slice_S; [reflexivity|]. now rewrite IH. Qed.

Definition cons_head {A} (a : A) (ll : list (list A)) : list (list A) :=
  match ll with [] => [[a]] | l :: ll => (a :: l) :: ll end.

Lemma split_from_0 {A} (a : A) l cuts : split_from 0 (a :: l) (map S cuts) = cons_head a (split_from 0 l cuts).
Proof.
  destruct cuts as [|c cuts]; cbn [split_from map cons_head].
  - unfold slice. rewrite !Nat.sub_0_r. reflexivity.
  - rewrite split_from_S. f_equal. unfold slice. now rewrite !Nat.sub_0_r.
Qed.

Lemma split_nil s : split_in_peaks [] s = [[]].
Proof. reflexivity. Qed.
Lemma split_one a s : split_in_peaks [a] s = [[a]].
Proof. reflexivity. Qed.
Lemma split_two a b l s :
  split_in_peaks (a :: b :: l) s =
  if (s <? gap a b)%Z then [a] :: split_in_peaks (b :: l) s else cons_head a (split_in_peaks (b :: l) s).
Proof.
  unfold split_in_peaks at 1. change (diff (a :: b :: l)) with (gap a b :: diff (b :: l)).
  unfold np_where, np_split. cbn [where_from]. destruct (s <? gap a b)%Z.
  - cbn [map]. rewrite where_from_S. cbn [split_from]. rewrite split_from_S. reflexivity.
  - rewrite where_from_S, split_from_0. reflexivity.
Qed.

Lemma split_head a l s : exists g gs, split_in_peaks (a :: l) s = (a :: g) :: gs.
Proof.
  destruct l as [|b l]; [exists [], []; reflexivity|]. rewrite split_two.
  destruct (s <? gap a b)%Z; [eexists _, _; reflexivity|].
  destruct (split_in_peaks (b :: l) s); eexists _, _; reflexivity.
Qed.

Lemma app_cons_two {A} (g h x : A) u v (P : list A) :
  g :: h :: P = u ++ x :: v ->
  (u = [] /\ x = g /\ v = h :: P) \/ exists u', u = g :: u' /\ h :: P = u' ++ x :: v.
Proof. destruct u as [|y u]; cbn; intros E; inversion E; subst; [left; auto|right; eauto]. Qed.

Lemma split_gap_partition l s : l <> [] -> gap_partition s l (split_in_peaks l s).
Proof.
  destruct l as [|a l]; [easy|intros _]. revert a; induction l as [|b l IH]; intros a.
  - rewrite split_one. constructor; cbn; auto.
    + repeat constructor; discriminate.
    + intros g [<-|[]] [|x [|y u]] a' b' v E; cbn in E; try discriminate.
    + intros u g x b h v E. destruct u as [|? [|? u]]; cbn in E; inversion E.
  - rewrite split_two. destruct (IH b) as [Hc Hn Hi Ha]. destruct (split_head b l s) as (g & gs & Eg).
    destruct (Z.ltb_spec s (gap a b)) as [L|L].
    + constructor.
      * cbn. now rewrite Hc.
      * constructor; [discriminate|assumption].
      * intros h [<-|Hh] u x y v E; [|now apply (Hi h Hh u x y v)].
        destruct u as [|? [|? u]]; cbn in E; inversion E.
      * intros u h x y t v E. rewrite Eg in *.
        apply app_cons_two in E. destruct E as [(-> & E & E')|(u' & -> & E)].
        -- inversion E'; subst. destruct h as [|? [|? h]]; inversion E; subst. assumption.
        -- exact (Ha u' h x y t v E).
    + rewrite Eg in *. cbn [cons_head]. constructor.
      * cbn in *. now rewrite Hc.
      * inversion Hn; subst. constructor; [discriminate|assumption].
      * intros h [<-|Hh] u x y v E.
        -- destruct u as [|z u]; cbn in E; inversion E; subst.
           ++ assumption.
           ++ apply (Hi (b :: g) (or_introl eq_refl) u x y v). assumption.
        -- apply (Hi h (or_intror Hh) u x y v E).
      * intros u h x y t v E. destruct u as [|z u]; cbn in E; inversion E; subst.
        -- destruct h as [|w h]; cbn in *; inversion H0; subst.
           apply (Ha [] h x y t v). cbn. now rewrite H2.
        -- apply (Ha ((b :: g) :: u) h x y t v). reflexivity.
Qed.

Lemma gap_partition_unique s l gs gs' : gap_partition s l gs -> gap_partition s l gs' -> gs = gs'.
Proof.
  assert (H : forall l gs, gap_partition s l gs -> gs = match l with [] => [] | _ => split_in_peaks l s end).
  { clear. induction l as [|a l IH]; intros gs [Hc Hn Hi Ha].
    - destruct gs as [|g gs]; [reflexivity|]. inversion Hn; subst. destruct g; [easy|discriminate].
    - destruct gs as [|g gs]; [discriminate|]. inversion Hn as [|? ? Hg Hn']; subst.
      destruct g as [|x g]; [easy|]. cbn in Hc. inversion Hc; subst x.
      destruct g as [|b g].
      + (* [a] alone *)
        assert (P : gap_partition s (concat gs) gs).
        { constructor; auto.
          - intros h Hh. apply Hi. now right.
          - intros u h x y t v E. apply (Ha ([a] :: u) h x y t v). cbn. now rewrite E. }
        cbn [app concat] in *. specialize (IH gs). rewrite H1 in *. specialize (IH P).
        destruct l as [|b l]; [subst; reflexivity|].
        rewrite split_two. subst gs. destruct (split_head b l s) as (h & hs & Eh).
        assert (L : (s < gap a b)%Z). { apply (Ha [] [] a b h hs). cbn. now rewrite Eh. }
        apply Z.ltb_lt in L. now rewrite L.
      + cbn in H1. destruct l as [|b' l]; [discriminate|]. inversion H1; subst b'.
        assert (P : gap_partition s (b :: l) ((b :: g) :: gs)).
        { constructor; auto.
          - constructor; [discriminate|assumption].
          - intros h [<-|Hh] u x y v E; [|apply (Hi h (or_intror Hh) u x y v E)].
            apply (Hi (a :: b :: g) (or_introl eq_refl) (a :: u) x y v). cbn. now rewrite E.
          - intros u h x y t v E. destruct u as [|z u]; cbn in E; inversion E; subst.
            + apply (Ha [] (a :: h) x y t v). cbn. f_equal. now rewrite H0.
            + apply (Ha ((a :: b :: g) :: u) h x y t v). reflexivity. }
        apply IH in P. rewrite Hc. rewrite split_two. rewrite <- P.
        assert (L : (gap a b <= s)%Z). { apply (Hi _ (or_introl eq_refl) [] a b g). reflexivity. }
        apply Z.ltb_ge in L. now rewrite L. }
  intros H1 H2. now rewrite (H _ _ H1), (H _ _ H2).
Qed.

(** ---------- select_peaks ---------- *)
Lemma rfilter_ok {A} (f : A -> result bool) p l :
  (forall a, In a l -> f a = Ok (p a)) -> rfilter f l = Ok (filter p l).
Proof.
  induction l as [|a l IH]; intros H; [reflexivity|]. cbn. rewrite (H a) by now left. cbn.
  rewrite IH by (intros; apply H; now right). cbn. now destruct (p a).
Qed.

Lemma last_app_one {A} (l : list A) x d : last (l ++ [x]) d = x.
Proof. induction l as [|a [|b l] IH]; auto. Qed.

Lemma ends_spec g a b : ends g = Ok (a, b) <-> starts_at g a /\ ends_at g b.
Proof.
  unfold starts_at, ends_at. destruct g as [|x g]; cbn.
  - split; [discriminate|]. intros [(t & E) _]. discriminate.
  - split.
    + intros E. inversion E; subst. split; [eauto|].
      destruct (exists_last (l := a :: g)) as (t & y & Ey); [discriminate|].
      exists t. rewrite Ey. f_equal. f_equal. destruct t as [|z t]; inversion Ey; subst; [reflexivity|].
      now rewrite last_app_one.
    + intros [(t & E1) (u & E2)]. inversion E1; subst. f_equal. f_equal.
      destruct u as [|z u]; inversion E2; subst; [reflexivity|]. now rewrite last_app_one.
Qed.

Lemma ends_cons x g : ends (x :: g) = Ok (x, last g x).
Proof. reflexivity. Qed.

Lemma contains_inside m x : contains m x = true <-> inside m x.
Proof. unfold contains, inside. now rewrite andb_true_iff, !Qleb_le. Qed.

Definition validb (time len : minmax) (wid : Q) (g : list nat) : bool :=
  match is_valid time len wid g with Ok b => b | Err _ => false end.

Lemma is_valid_ok time len wid g : g <> [] -> is_valid time len wid g = Ok (validb time len wid g).
Proof. destruct g; [easy|reflexivity]. Qed.

Lemma validb_qualifies time len wid g : validb time len wid g = true <-> qualifies time len wid g.
Proof.
  unfold validb, is_valid, qualifies. destruct (ends g) as [[a b]|e] eqn:E; cbn.
  - rewrite !andb_true_iff, !contains_inside. apply ends_spec in E. split.
    + intros [[H1 H2] H3]. exists a, b. intuition.
    + intros (a' & b' & Ha & Hb & H). assert (E' : ends g = Ok (a', b')) by (apply ends_spec; auto).
      apply ends_spec in E. rewrite E in E'. inversion E'; subst. intuition.
  - split; [discriminate|]. intros (a' & b' & Ha & Hb & H).
    assert (E' : ends g = Ok (a', b')) by (apply ends_spec; auto). congruence.
Qed.

Lemma select_peaks_ok gs time len wid :
  Forall (fun g => g <> []) gs -> select_peaks gs time len wid = Ok (filter (validb time len wid) gs).
Proof.
  intros H. unfold select_peaks. apply rfilter_ok. intros g Hg. apply is_valid_ok.
  rewrite Forall_forall in H. now apply H.
Qed.

(** ---------- sums of slices ---------- *)
Local Open Scope Q_scope.
Lemma slice_nil {A} lo hi : slice lo hi (@nil A) = [].
Proof. unfold slice. now rewrite skipn_nil, firstn_nil. Qed.

Lemma slice_sum l lo hi : sumQ (slice lo hi l) == sumF (fun i => nth i l 0) (seq lo (hi - lo)).
Proof.
  revert lo hi; induction l as [|x l IH]; intros lo hi.
  - rewrite slice_nil. symmetry. apply sumF_zero. intros a _. now destruct a.
  - destruct lo as [|lo].
    + unfold slice. cbn [skipn]. rewrite Nat.sub_0_r. destruct hi as [|hi]; [reflexivity|].
      cbn [firstn seq sumQ]. rewrite sumF_cons. cbn [nth].
      specialize (IH 0%nat hi). unfold slice in IH. cbn [skipn] in IH. rewrite Nat.sub_0_r in IH. rewrite IH.
      rewrite <- seq_shift, sumF_map. reflexivity.
    + destruct hi as [|hi].
      * reflexivity.
      * rewrite slice_S, IH. cbn [Nat.sub]. rewrite <- seq_shift, sumF_map. reflexivity.
Qed.

Lemma sumF_seq_app (f : nat -> Q) lo n m : sumF f (seq lo (n + m)) == sumF f (seq lo n) + sumF f (seq (lo + n) m).
Proof. now rewrite seq_app, sumF_app. Qed.

Lemma sumF_seq_shift (f : nat -> Q) k lo n : sumF f (seq (k + lo) n) = sumF (fun i => f (k + i)%nat) (seq lo n).
Proof.
  revert lo; induction n as [|n IH]; intros lo; [reflexivity|]. cbn [seq]. rewrite !sumF_cons.
  rewrite <- IH. now rewrite Nat.add_succ_r.
Qed.

Lemma filter_seq_range lo hi n :
  filter (fun i => (lo <=? i) && (i <? hi))%nat (seq 0 n) = seq lo (Nat.min hi n - lo).
Proof.
  induction n as [|n IH].
  - cbn. now rewrite Nat.min_0_r.
  - rewrite seq_S, filter_app, IH. cbn [filter Nat.add].
    destruct (Nat.leb_spec lo n), (Nat.ltb_spec n hi); cbn [andb].
    + replace (Nat.min hi (S n) - lo)%nat with ((Nat.min hi n - lo) + 1)%nat by lia.
      rewrite seq_app. f_equal. cbn. f_equal. lia.
    + rewrite app_nil_r. f_equal. lia.
    + rewrite app_nil_r. f_equal. lia.
    + rewrite app_nil_r. f_equal. lia.
Qed.

Lemma sumF_nth_beyond (l : list Q) lo n : (length l <= lo)%nat -> sumF (fun i => nth i l 0) (seq lo n) == 0.
Proof. intros H. apply sumF_zero. intros a Ha. apply in_seq in Ha. rewrite nth_overflow by lia. reflexivity. Qed.

Lemma charge_in_slice lo hi row : charge_in lo hi row == sumQ (slice lo hi row).
Proof.
  rewrite slice_sum. unfold charge_in. rewrite filter_seq_range.
  destruct (le_lt_dec hi (length row)) as [L|L].
  - rewrite Nat.min_l by assumption. reflexivity.
  - rewrite Nat.min_r by lia. destruct (le_lt_dec lo (length row)) as [L'|L'].
    + replace (hi - lo)%nat with ((length row - lo) + (hi - length row))%nat by lia.
      rewrite sumF_seq_app. rewrite (sumF_nth_beyond row (lo + (length row - lo))) by lia. lra.
    + rewrite (sumF_nth_beyond row lo (hi - lo)) by lia.
      replace (length row - lo)%nat with 0%nat by lia. reflexivity.
Qed.

Lemma nth_pad p s i : nth i (pad_left p s) 0 = if (i <? p)%nat then 0 else nth (i - p) s 0.
Proof.
  unfold pad_left. destruct (Nat.ltb_spec i p).
  - rewrite app_nth1 by (rewrite repeat_length; lia). apply nth_repeat.
  - rewrite app_nth2 by (rewrite repeat_length; lia). now rewrite repeat_length.
Qed.

Lemma slice_pad_sum p s lo hi : (p <= hi)%nat ->
  sumQ (slice lo hi (pad_left p s)) == sumQ (slice (lo - p) (hi - p) s).
Proof.
  intros Hp. rewrite !slice_sum. destruct (le_lt_dec p lo) as [L|L].
  - replace lo with (p + (lo - p))%nat at 1 by lia. rewrite sumF_seq_shift.
    replace (hi - p - (lo - p))%nat with (hi - lo)%nat by lia.
    apply sumF_ext. intros i Hi. rewrite nth_pad. destruct (Nat.ltb_spec (p + i) p); [lia|].
    replace (p + i - p)%nat with i by lia. reflexivity.
  - replace (hi - lo)%nat with ((p - lo) + (hi - p))%nat by lia. rewrite sumF_seq_app.
    rewrite sumF_zero.
    + replace (lo + (p - lo))%nat with (p + 0)%nat by lia. rewrite sumF_seq_shift.
      replace (lo - p)%nat with 0%nat by lia. rewrite Nat.sub_0_r.
      rewrite Qplus_0_l. apply sumF_ext. intros i Hi. rewrite nth_pad. destruct (Nat.ltb_spec (p + i) p); [lia|].
      replace (p + i - p)%nat with i by lia. reflexivity.
    + intros i Hi. apply in_seq in Hi. rewrite nth_pad. destruct (Nat.ltb_spec i p); [reflexivity|lia].
Qed.

Lemma slice_slice {A} lo hi a c (l : list A) :
  slice lo hi (slice a c l) = slice (a + lo) (Nat.min c (a + hi)) l.
Proof.
  unfold slice. rewrite skipn_firstn_comm, firstn_firstn, skipn_skipn'. f_equal; lia.
Qed.

(** consecutive slices *)
Lemma covers_le lo hi sl : covers lo hi sl -> (lo <= hi)%nat.
Proof. revert lo; induction sl as [|[a b] sl IH]; cbn; intros lo H; [lia|]. destruct H as (-> & L & H). apply IH in H. lia. Qed.

Lemma covers_concat {A} (l : list A) lo hi sl : covers lo hi sl ->
  concat (map (fun s => slice (fst s) (snd s) l) sl) = slice lo hi l.
Proof.
  revert lo; induction sl as [|[a b] sl IH]; cbn [covers map concat fst snd]; intros lo H.
  - subst. unfold slice. now rewrite Nat.sub_diag.
  - destruct H as (-> & L & H). rewrite (IH b H). apply slice_cat; [lia|]. now apply covers_le in H.
Qed.

Lemma covers_sum l lo hi sl : covers lo hi sl ->
  sumQ (map (fun s => sumQ (slice (fst s) (snd s) l)) sl) == sumQ (slice lo hi l).
Proof.
  intros H. rewrite <- (covers_concat l _ _ _ H). rewrite (sumQ_sumF (concat _)), sumF_concat, sumF_map.
  unfold sumF at 1. rewrite sumQ_sumF. rewrite sumF_map. apply sumF_ext. intros. now rewrite sumQ_sumF.
Qed.

Lemma covers_even s n : (0 < s)%nat -> forall i, covers (s * i) (s * (i + n)) (map (fun i => (s * i, s * (i + 1))%nat) (seq i n)).
Proof.
  intros Hs. induction n as [|n IH]; intros i; cbn [seq map covers].
  - f_equal. lia.
  - split; [reflexivity|]. split; [nia|]. specialize (IH (S i)).
    replace (s * (i + 1))%nat with (s * S i)%nat by lia.
    replace (s * (i + S n))%nat with (s * (S i + n))%nat by lia. exact IH.
Qed.

Lemma cdiv_spec n s : (0 < s)%nat -> (n <= s * cdiv n s)%nat /\ (s * cdiv n s < n + s)%nat.
Proof.
  intros Hs. unfold cdiv. pose proof (Nat.div_mod (n + s - 1) s ltac:(lia)).
  pose proof (Nat.mod_upper_bound (n + s - 1) s ltac:(lia)). nia.
Qed.

Lemma even_slices_covers n s : (0 < s)%nat -> covers 0 (s * cdiv n s) (even_slices n s).
Proof. intros Hs. pose proof (covers_even s (cdiv n s) Hs 0). now rewrite Nat.mul_0_r in H. Qed.

Lemma even_slices_in n s a b : (0 < s)%nat -> In (a, b) (even_slices n s) -> (a < n /\ b = a + s)%nat.
Proof.
  intros Hs H. unfold even_slices in H. apply in_map_iff in H. destruct H as (i & E & Hi). apply in_seq in Hi.
  inversion E; subst. pose proof (cdiv_spec n s Hs). split; nia.
Qed.

(** ---------- averages ---------- *)
Lemma qn_pos n : (0 < n)%nat -> 0 < qn n.
Proof. intros. unfold qn. change 0 with (inject_Z 0). rewrite <- Zlt_Qlt. lia. Qed.
Lemma qn_le a b : (a <= b)%nat -> qn a <= qn b.
Proof. intros. unfold qn. rewrite <- Zle_Qle. lia. Qed.
Lemma qn_lt a b : (a < b)%nat -> qn a < qn b.
Proof. intros. unfold qn. rewrite <- Zlt_Qlt. lia. Qed.

Lemma div_bounds a s lo hi : 0 < s -> lo * s <= a -> a <= hi * s -> lo <= a / s /\ a / s <= hi.
Proof. intros Hs H1 H2. split; [apply Qle_shift_div_l | apply Qle_shift_div_r]; assumption. Qed.

Lemma wsum_bounds w t lo hi : length t = length w ->
  (forall x, In x w -> 0 <= x) ->
  (forall i, (i < length w)%nat -> 0 < nth i w 0 -> lo <= nth i t 0 <= hi) ->
  lo * sumQ w <= sumQ (map2 Qmult w t) <= hi * sumQ w.
Proof.
  revert t; induction w as [|x w IH]; intros [|y t] E Hw Ht; try discriminate; cbn [map2 sumQ].
  - lra.
  - destruct (IH t) as [I1 I2].
    + now inversion E.
    + intros; apply Hw; now right.
    + intros i Hi Hp. apply (Ht (S i)); [cbn; lia|assumption].
    + pose proof (Hw x (or_introl eq_refl)).
      destruct (Qlt_le_dec 0 x) as [P|P].
      * destruct (Ht 0%nat) as [T1 T2]; [cbn; lia|assumption|]. cbn in T1, T2. split; nra.
      * assert (x == 0) by lra. rewrite H0. split; lra.
Qed.

Lemma sumQ_bounds t lo hi : (forall x, In x t -> lo <= x <= hi) -> lo * qn (length t) <= sumQ t <= hi * qn (length t).
Proof.
  induction t as [|x t IH]; intros H; cbn [sumQ length].
  - change (qn 0) with 0. lra.
  - destruct IH as [I1 I2]; [intros; apply H; now right|]. destruct (H x (or_introl eq_refl)) as [H1 H2].
    assert (E : qn (S (length t)) == 1 + qn (length t)).
    { unfold qn. rewrite Nat2Z.inj_succ. unfold Z.succ. rewrite inject_Z_plus. change (inject_Z 1) with 1. lra. }
    rewrite E. lra.
Qed.

Lemma clip0_nonneg x : 0 <= clip0 x.
Proof. unfold clip0. destruct (Qltb_spec x 0); lra. Qed.

Lemma existsb_false_all {A} (p : A -> bool) l : existsb p l = false -> forall x, In x l -> p x = false.
Proof. intros H x Hx. destruct (p x) eqn:E; [|reflexivity]. rewrite <- H. symmetry. apply existsb_exists. eauto. Qed.

Lemma bin_weights_spec e :
  match bin_weights e with
  | Some w => length w = cols e /\ (forall x, In x w -> 0 <= x) /\ 0 < sumQ w /\
              (forall i, (i < cols e)%nat -> nth i w 0 = clip0 (col_sum e i))
  | None => forall i, (i < cols e)%nat -> col_sum e i <= 0
  end.
Proof.
  unfold bin_weights, sum_over_sensors. set (s := map clip0 (map (col_sum e) (seq 0 (cols e)))).
  assert (Hs : forall i, (i < cols e)%nat -> nth i s 0 = clip0 (col_sum e i)).
  { intros i Hi. unfold s. rewrite map_map. rewrite (nth_indep _ 0 (clip0 (col_sum e 0)))
      by (rewrite map_length, seq_length; lia).
    rewrite (map_nth (fun i => clip0 (col_sum e i)) (seq 0 (cols e)) 0%nat i). now rewrite seq_nth by lia. }
  assert (Hn : forall x, In x s -> 0 <= x).
  { intros x Hx. unfold s in Hx. apply in_map_iff in Hx. destruct Hx as (y & <- & _). apply clip0_nonneg. }
  destruct (existsb _ s) eqn:E.
  - split; [unfold s; now rewrite !map_length, seq_length|]. split; [assumption|]. split; [|assumption].
    apply existsb_exists in E. destruct E as (x & Hx & Hne). apply negb_true_iff, Qeqb_neq in Hne.
    pose proof (Hn x Hx). rewrite sumQ_sumF.
    pose proof (sumF_ge_one (fun x => x) s x Hn Hx). cbn in H0. lra.
  - intros i Hi. assert (Hin : In (nth i s 0) s).
    { apply nth_In. unfold s. now rewrite !map_length, seq_length. }
    pose proof (existsb_false_all _ _ E _ Hin) as Z. cbn in Z. apply negb_false_iff, Qeqb_eq in Z.
    rewrite Hs in Z by assumption. unfold clip0 in Z. destruct (Qltb_spec (col_sum e i) 0); lra.
Qed.

(** value of a rebinned time: defined whenever the slice is not empty, and a convex
    combination of the times of the samples with positive charge, or of all of them *)
Lemma bin_time_ok times wfs a b : cols wfs = length times -> (a < length times)%nat -> (a < b)%nat ->
  exists t, bin_time times wfs (a, b) = Ok t /\
  forall lo hi,
   ((forall i, (a <= i < b)%nat -> (i < length times)%nat -> lo <= nth i times 0 <= hi) \/
    ((exists j, (a <= j < b)%nat /\ (j < length times)%nat /\ 0 < col_sum wfs j) /\
     forall i, (a <= i < b)%nat -> (i < length times)%nat -> 0 < col_sum wfs i -> lo <= nth i times 0 <= hi)) ->
   lo <= t <= hi.
Proof.
  intros Hc Ha Hab. unfold bin_time. cbn [fst snd].
  assert (Hlen : length (slice a b times) = (Nat.min b (length times) - a)%nat) by apply length_slice.
  assert (Hn : forall i, (i < Nat.min b (length times) - a)%nat -> nth i (slice a b times) 0 = nth (a + i) times 0).
  { intros i Hi. destruct (nth_error (slice a b times) i) eqn:E.
    - rewrite (nth_error_nth _ _ _ E). rewrite nth_error_slice in E. destruct (Nat.ltb_spec i (b - a)); [|lia].
      symmetry. now apply nth_error_nth.
    - apply nth_error_None in E. lia. }
  assert (Hcs : forall i, (i < Nat.min b (length times) - a)%nat -> col_sum (mslice a b wfs) i = col_sum wfs (a + i)).
  { intros i Hi. unfold col_sum, mslice. cbn [rows]. rewrite map_map. f_equal. apply map_ext. intros r.
    destruct (nth_error (slice a b r) i) eqn:E.
    - rewrite (nth_error_nth _ _ _ E). rewrite nth_error_slice in E. destruct (Nat.ltb_spec i (b - a)); [|lia].
      symmetry. now apply nth_error_nth.
    - rewrite nth_overflow by now apply nth_error_None. rewrite nth_error_slice in E.
      destruct (Nat.ltb_spec i (b - a)); [|lia]. rewrite nth_overflow; [reflexivity|]. now apply nth_error_None. }
  pose proof (bin_weights_spec (mslice a b wfs)) as W. cbn [cols mslice] in W. rewrite Hc in W.
  destruct (bin_weights (mslice a b wfs)) as [w|].
  - destruct W as (Wl & Wn & Wp & Wv). unfold average. rewrite Wl, Hlen, Nat.eqb_refl. cbn [negb].
    destruct (Qeqb_spec (sumQ w) 0) as [Z|_]; [lra|]. eexists. split; [reflexivity|].
    intros lo hi H. apply div_bounds with (s := sumQ w); try assumption.
    all: destruct (wsum_bounds w (slice a b times) lo hi) as [B1 B2]; try assumption; try lia.
    all: intros i Hi Hp; rewrite Wl in Hi; rewrite Hn by assumption.
    all: destruct H as [H|(_ & H)]; [apply H; lia|]; apply H; try lia.
    all: rewrite Wv, Hcs in Hp by assumption; unfold clip0 in Hp; destruct (Qltb_spec (col_sum wfs (a + i)) 0); lra.
  - unfold average. rewrite Hlen. destruct (Nat.eqb_spec (Nat.min b (length times) - a) 0) as [Z|_]; [lia|].
    eexists. split; [reflexivity|]. intros lo hi H. rewrite <- Hlen.
    apply div_bounds with (s := qn (length (slice a b times))); [apply qn_pos; lia| |].
    all: destruct (sumQ_bounds (slice a b times) lo hi) as [B1 B2]; try assumption.
    all: intros x Hx; apply (In_nth _ _ 0) in Hx; destruct Hx as (i & Hi & <-); rewrite Hlen in Hi; rewrite Hn by assumption.
    all: destruct H as [H|((j & Hj & Hjl & Hjp) & _)]; [apply H; lia|].
    all: exfalso; specialize (W (j - a)%nat ltac:(lia)); rewrite Hcs in W by lia.
    all: replace (a + (j - a))%nat with j in W by lia; lra.
Qed.

Lemma rmap_ok {A B} (f : A -> result B) l :
  (forall a, In a l -> exists b, f a = Ok b) ->
  exists bs, rmap f l = Ok bs /\ Forall2 (fun a b => f a = Ok b) l bs.
Proof.
  induction l as [|a l IH]; intros H; [exists []; cbn; auto|].
  destruct (H a (or_introl eq_refl)) as (b & Eb). destruct IH as (bs & E & F); [intros; apply H; now right|].
  exists (b :: bs). cbn. rewrite Eb, E. auto.
Qed.

Lemma rmap_forall2 {A B} (f : A -> result B) l bs : rmap f l = Ok bs -> Forall2 (fun a b => f a = Ok b) l bs.
Proof.
  revert bs; induction l as [|a l IH]; cbn; intros bs E; [inversion E; constructor|].
  destruct (f a) eqn:Ea; [|discriminate]. destruct (rmap f l) eqn:Er; [|discriminate]. inversion E; subst. constructor; auto.
Qed.

(** the whole loop over slices *)
Lemma rebin_slices_ok slices times widths wfs :
  cols wfs = length times ->
  (forall a b, In (a, b) slices -> (a < length times /\ a < b)%nat) ->
  exists ts, rebin_slices slices times widths wfs =
    Ok (ts, map (fun sl => sumQ (slice (fst sl) (snd sl) widths)) slices,
        {| cols := length slices;
           rows := map (fun r => map (fun sl => sumQ (slice (fst sl) (snd sl) r)) slices) (rows wfs) |}) /\
    Forall2 (fun sl t => bin_time times wfs sl = Ok t) slices ts.
Proof.
  intros Hc Hs. unfold rebin_slices. destruct (rmap_ok (bin_time times wfs) slices) as (ts & E & F).
  - intros [a b] Hab. destruct (Hs a b Hab) as [H1 H2]. destruct (bin_time_ok times wfs a b Hc H1 H2) as (t & Et & _). eauto.
  - rewrite E. cbn [rbind]. eauto.
Qed.
