(** C40: one row per bin, with the fit of its events; C63: time slices and region of the lifetime *)
From Verif Require Import Base Arrays PeaksModel PeaksProofs BuffersProofs WfmModel WfmProps XyProps PmapioProofs KrProps DbModel DbProps DbThr CorrModel CorrSpec CorrProps KmapModel KmapSpec KmapProps.
Local Open Scope Q_scope.

Definition all_keys (nz n : nat) : list key := list_prod (list_prod (seq 0 nz) (seq 0 n)) (seq 0 n).
Lemma in_all_keys nz n k i j : In (k, i, j) (all_keys nz n) <-> (k < nz /\ i < n /\ j < n)%nat.
Proof. unfold all_keys. rewrite !in_prod_iff, !in_seq. lia. Qed.
Lemma all_keys_grid nz n : covers_grid nz n (all_keys nz n).
Proof. split; [apply triples_sorted|]. intros. apply in_all_keys. Qed.
Lemma nth_prod {A} (l : list A) c x j d : (x < length l)%nat -> (j < c)%nat -> nth (x * c + j) (list_prod l (seq 0 c)) d = (nth x l (fst d), j).
Proof.
  revert x. induction l as [|a l IH]; intros x Hx Hj; [cbn in Hx; lia|]. cbn [list_prod]. assert (L : length (map (fun y => (a, y)) (seq 0 c)) = c) by now rewrite map_length, seq_length. destruct x as [|x].
  - rewrite app_nth1 by (rewrite L; lia). cbn [nth Nat.mul Nat.add]. rewrite nth_indep with (d' := (a, 0%nat)) by (rewrite L; lia). rewrite (map_nth (fun y => (a, y))), seq_nth by assumption. reflexivity.
  - rewrite app_nth2 by (rewrite L; lia). rewrite L. replace (S x * c + j - c)%nat with (x * c + j)%nat by lia. rewrite IH; [reflexivity|cbn in Hx; lia|assumption].
Qed.
Lemma nth_all_keys nz n p d : fits_in nz n n p -> nth (index n n p) (all_keys nz n) d = p.
Proof.
  destruct p as [[k i] j]. cbn. intros (H1 & H2 & H3). unfold all_keys. rewrite nth_prod; [|rewrite prod_length, !seq_length; nia|assumption]. rewrite nth_prod; [|rewrite seq_length; assumption|assumption]. now rewrite seq_nth.
Qed.
Lemma length_all_keys nz n : length (all_keys nz n) = (nz * n * n)%nat.
Proof. unfold all_keys. now rewrite !prod_length, !seq_length. Qed.

Lemma group_keys_nodup l : NoDup (group_keys l).
Proof. unfold group_keys. eapply Permutation_NoDup; [symmetry; apply sort_by_perm|]. apply NoDup_nodup. Qed.
Lemma in_group_keys l k : In k (group_keys l) <-> In k l.
Proof. unfold group_keys. rewrite in_sort_by. apply nodup_In. Qed.
Lemma group_keys_grid l nz n : (forall k, In k l <-> In k (all_keys nz n)) -> group_keys l = all_keys nz n.
Proof.
  intros H. pose proof (triples_sorted 0 nz 0 n 0 n) as S. fold (all_keys nz n) in S. unfold group_keys. apply sort_by_eq; [exact key_le_total|exact key_le_trans| | |].
  - apply NoDup_Permutation; [apply NoDup_nodup|now apply sorted_before_nodup|]. intros k. rewrite nodup_In. apply H.
  - eapply sorted_impl; [|exact S]. intros a b K. apply key_le_iff. now left.
  - intros a b _ _ K1 K2. apply key_le_iff in K1, K2. destruct K1 as [K1|]; [|assumption]. destruct K2 as [K2|]; [|now symmetry]. exfalso. now apply (before_asym a b).
Qed.
Lemma filter_key_map {B} (g : key -> B) l k : NoDup l -> filter (fun r => if key_dec (fst r) k then true else false) (map (fun k => (k, g k)) l) = if in_dec key_dec k l then [(k, g k)] else [].
Proof.
  induction 1 as [|a l N ND IH]; [reflexivity|]. cbn [map filter fst]. destruct (key_dec a k) as [->|D].
  - destruct (in_dec key_dec k (k :: l)) as [|C]; [|exfalso; apply C; now left]. f_equal. rewrite IH. destruct (in_dec key_dec k l); [contradiction|reflexivity].
  - rewrite IH. destruct (in_dec key_dec k l) as [I|I], (in_dec key_dec k (a :: l)) as [I'|I']; try reflexivity; exfalso; [apply I'; now right|destruct I'; [now apply D|contradiction]].
Qed.
Lemma first_row_fit f : first_row [f; nan_row] = f.
Proof. destruct f as [[n|] [m|] [s|] [me|] [se|]]; reflexivity. Qed.

Section Map.
  Variable fit : list Q -> fitted.
  Variables (xy0 xy1 dt0 dt1 : Q) (n nz : nat) (s0 s1 : Q).
  Hypothesis Hn : (0 < n)%nat.
  Hypothesis Hz : (0 < nz)%nat.
  Notation binned := (binned xy0 xy1 dt0 dt1 n nz s0 s1).
  Notation energies := (bin_energies xy0 xy1 dt0 dt1 n nz s0 s1).
  Notation measured := (measured xy0 xy1 dt0 dt1 n nz s0 s1 fit).
  Lemma is_in_bin_iff a b m k x : (k < m)%nat -> is_in_bin a b m k x = true <-> in_bin a b m k x.
  Proof. intros H. unfold is_in_bin, in_bin. rewrite andb_true_iff, Qleb_le, Qltb_lt. tauto. Qed.
  Lemma in_bin_range a b m k x : in_bin a b m k x -> a <= x < b.
  Proof.
    intros (K1 & K2 & K3). assert (Pn : 0 < qn m) by (apply qn_pos; lia). assert (W : (b - a) / qn m * qn m == b - a) by (field; lra).
    assert (L0 : 0 <= qn k) by (change 0 with (qn 0); apply qn_le; lia). assert (L1 : qn (S k) <= qn m) by (apply qn_le; lia). rewrite qn_S in *. set (w := (b - a) / qn m) in *. assert (0 < w) by nra. split; nra.
  Qed.
  (** the bin found is the one that contains the position *)
  Lemma digit_bin a b m k x : (0 < m)%nat -> (k < m)%nat -> a <= x < b -> (digitize x (linspace a b m) - 1 =? k)%nat = is_in_bin a b m k x.
  Proof.
    intros Hm Hk Hx. destruct (digitize_bin a b m x Hm Hx) as (d & D & B). rewrite D. replace (S d - 1)%nat with d by lia. destruct (Nat.eqb_spec d k) as [->|N].
    - symmetry. now apply is_in_bin_iff.
    - symmetry. apply not_true_iff_false. intros K. apply is_in_bin_iff in K; [|assumption]. apply N. eapply in_bin_unique; eassumption.
  Qed.
  Lemma out_bin a b m k x : (k < m)%nat -> in_range x a b = false -> is_in_bin a b m k x = false.
  Proof. intros Hk H. apply not_true_iff_false. intros K. apply is_in_bin_iff in K; [|assumption]. apply in_bin_range in K. apply in_range_iff in K. congruence. Qed.
  Lemma key_dec_eq (a b : key) : (if key_dec a b then true else false) = (let '(k, i, j) := a in let '(k', i', j') := b in (k =? k')%nat && (i =? i')%nat && (j =? j')%nat).
  Proof.
    destruct (key_dec a b) as [->|N]; [destruct b as [[k i] j]; now rewrite !Nat.eqb_refl|]. destruct a as [[k i] j], b as [[k' i'] j']. symmetry. apply not_true_iff_false. intros H. rewrite !andb_true_iff, !Nat.eqb_eq in H. apply N. destruct H as [[-> ->] ->]. reflexivity.
  Qed.
  Lemma energies_of_key df p : fits_in nz n n p -> map snd (filter (fun r => if key_dec (fst r) p then true else false) (flat_map binned df)) = energies df p.
  Proof.
    destruct p as [[k i] j]. intros (H1 & H2 & H3). induction df as [|e df IH]; [reflexivity|]. cbn [flat_map bin_energies]. rewrite filter_app, map_app, IH. f_equal. unfold KmapModel.binned.
    destruct (kX e) as [x|], (kY e) as [y|], (kDT e) as [t|], (kS2e e) as [s|]; try reflexivity.
    destruct (in_range x xy0 xy1) eqn:Rx; cbn [andb]; [|now rewrite (out_bin _ _ _ i x), andb_false_r]. destruct (in_range y xy0 xy1) eqn:Ry; cbn [andb]; [|now rewrite (out_bin _ _ _ j y), andb_false_r].
    destruct (in_range t dt0 dt1) eqn:Rt; cbn [andb]; [|now rewrite (out_bin _ _ _ k t)]. apply in_range_iff in Rx, Ry, Rt.
    change (Qle_bool s0 s && Qltb s s1) with (in_range s s0 s1). destruct (in_range s s0 s1); [|now rewrite andb_false_r]. cbn [filter fst]. rewrite key_dec_eq, !digit_bin by assumption. rewrite andb_true_r.
    destruct (is_in_bin dt0 dt1 nz k t && is_in_bin xy0 xy1 n i x && is_in_bin xy0 xy1 n j y); reflexivity.
  Qed.
  Lemma binned_fits df p s : In (p, s) (flat_map binned df) -> fits_in nz n n p.
  Proof.
    intros H. apply in_flat_map in H. destruct H as (e & _ & H). unfold KmapModel.binned in H. destruct (kX e) as [x|], (kY e) as [y|], (kDT e) as [t|], (kS2e e) as [s'|]; try destruct H.
    destruct (in_range x xy0 xy1) eqn:Rx; [|destruct H]. destruct (in_range y xy0 xy1) eqn:Ry; [|destruct H]. destruct (in_range t dt0 dt1) eqn:Rt; [|destruct H]. destruct (in_range s' s0 s1); [|destruct H]. cbn [andb] in H. destruct H as [H|[]]. injection H as <- _. apply in_range_iff in Rx, Ry, Rt.
    destruct (digitize_bin _ _ n x Hn Rx) as (dx & -> & Bx). destruct (digitize_bin _ _ n y Hn Ry) as (dy & -> & By). destruct (digitize_bin _ _ nz t Hz Rt) as (dt & -> & Bt). destruct Bx, By, Bt. cbn. lia.
  Qed.
  Lemma merged_eq df fits : fit_map fit xy0 xy1 dt0 dt1 n nz s0 s1 df = Ok fits -> merge_maps (create_empty_map n nz) fits = map (fun p => (p, measured df p)) (all_keys nz n).
  Proof.
    unfold fit_map. set (rows := flat_map binned df). intros H. assert (Ef : fits = map (fun k => (k, fit (map snd (filter (fun r => if key_dec (fst r) k then true else false) rows)))) (group_keys (map fst rows))) by (destruct rows; [discriminate|]; now injection H as <-).
    clear H. unfold merge_maps. assert (K : group_keys (map fst (fits ++ create_empty_map n nz)) = all_keys nz n).
    { apply group_keys_grid. intros p. rewrite map_app, in_app_iff. unfold create_empty_map. fold (all_keys nz n). rewrite map_map. cbn [fst]. rewrite map_id. split; [|now right]. intros [H|H]; [|assumption]. rewrite Ef, map_map in H. cbn [fst] in H. rewrite map_id, in_group_keys in H. apply in_map_iff in H. destruct H as ([p' s] & <- & H). apply binned_fits in H. destruct p' as [[k i] j]. apply in_all_keys. exact H. }
    rewrite K. apply map_ext_in. intros p Hp. f_equal. assert (Fp : fits_in nz n n p) by (destruct p as [[k i] j]; now apply in_all_keys in Hp). rewrite filter_app, map_app.
    assert (N : NoDup (all_keys nz n)) by apply sorted_before_nodup, triples_sorted. unfold create_empty_map. fold (all_keys nz n). rewrite (filter_key_map (fun _ => nan_row)) by assumption. destruct (in_dec key_dec p (all_keys nz n)); [|contradiction].
    rewrite Ef. rewrite (filter_key_map (fun k => fit (map snd (filter (fun r => if key_dec (fst r) k then true else false) rows)))) by apply group_keys_nodup. unfold KmapSpec.measured. rewrite <- (energies_of_key df p Fp). fold rows.
    destruct (in_dec key_dec p (group_keys (map fst rows))) as [I|I].
    - cbn [map app snd]. rewrite first_row_fit. destruct (map snd (filter _ rows)) eqn:E; [|reflexivity]. exfalso. apply in_group_keys, in_map_iff in I. destruct I as (r & E' & Hr). apply map_eq_nil in E. assert (X : In r (filter (fun r => if key_dec (fst r) p then true else false) rows)) by (apply filter_In; split; [assumption|]; destruct (key_dec (fst r) p); [reflexivity|contradiction]). rewrite E in X. destruct X.
    - assert (E : filter (fun r => if key_dec (fst r) p then true else false) rows = []). { apply filter_none_in. intros r Hr. destruct (key_dec (fst r) p) as [<-|]; [|reflexivity]. exfalso. apply I, in_group_keys, in_map, Hr. } rewrite E. reflexivity.
  Qed.
  Lemma regularized_ext a b c o o' f f' : (forall p, fits_in a b c p -> o p = o' p) -> (forall p, fits_in a b c p -> f p = f' p) -> regularized a b c o f -> regularized a b c o' f'.
  Proof.
    intros Ho Hf R k i j Hk Hi Hj. assert (Fp : fits_in a b c (k, i, j)) by (cbn; auto). rewrite <- (Ho _ Fp), <- (Hf _ Fp). destruct (R k i j Hk Hi Hj) as (R1 & R2 & R3). split; [assumption|]. split; [assumption|]. intros N I. destruct (R3 N I) as (vals & V1 & V2). exists vals. split; [|assumption].
    assert (Nb : forall q, In q (eight (k, i, j)) -> fits_in a b c q) by (intros q Hq; cbn in I, Hq; repeat (destruct Hq as [<-|Hq]; [cbn; lia|]); destruct Hq). revert V1 Nb. generalize (eight (k, i, j)). clear V2; induction 1 as [|q v l vs P F IH]; intros Nb; [constructor|]; constructor; [|apply IH; intros; apply Nb; now right]. rewrite <- Ho, <- Hf by (apply Nb; now left). assumption.
  Qed.
  Lemma maxQ_greatest l q : maxQ l = Some q -> is_greatest l q. Proof. intros E. pose proof (max_greatest l) as M. now rewrite E in M. Qed.
  Lemma in_rows {A B C} (f : A -> B -> C) l m r : length l = length m -> In r (map2 f l m) -> exists t a b, nth_error l t = Some a /\ nth_error m t = Some b /\ r = f a b.
  Proof. revert m. induction l as [|a l IH]; intros [|b m] L H; try discriminate; [destruct H|]. cbn in H. destruct H as [<-|H]; [exists 0%nat, a, b; auto|]. destruct (IH m ltac:(cbn in L; lia) H) as (t & a' & b' & X). exists (S t), a', b'. exact X. Qed.

  (** Each bin has exactly one row. It has the fit of its events, or nothing; only missing values of mu are replaced, as described by [regularized]. *)
  Theorem C40_map df rows : compute_3D_map fit xy0 xy1 dt0 dt1 n nz s0 s1 df = Ok rows ->
    covers_grid nz n (map r_key rows) /\
    (forall r, In r rows -> let f := measured df (r_key r) in
       nevents (r_fit r) = nevents f /\ sigma (r_fit r) = sigma f /\ mu_error (r_fit r) = mu_error f /\ sigma_error (r_fit r) = sigma_error f /\
       same_point (r_coord r) (centre xy0 xy1 dt0 dt1 n nz (r_key r))) /\
    (exists final, (forall r, In r rows -> mu (r_fit r) = final (r_key r)) /\ regularized nz n n (fun p => mu (measured df p)) final).
  Proof.
    unfold compute_3D_map. destruct (Nat.eqb_spec nz 0); [lia|]. destruct (Nat.eqb_spec n 0); [lia|]. cbn [orb]. destruct (fit_map fit xy0 xy1 dt0 dt1 n nz s0 s1 df) as [fits|] eqn:Ef; [|discriminate]. cbn [rbind]. rewrite (merged_eq _ _ Ef). destruct (_ || _); [discriminate|].
    set (merged := map (fun p => (p, measured df p)) (all_keys nz n)). destruct (regularize nz n n (map (fun r => mu (snd r)) merged)) as [mus|] eqn:Er; [|discriminate]. cbn [rbind]. injection 1 as <-.
    assert (Lm : length merged = (nz * n * n)%nat) by (unfold merged; now rewrite map_length, length_all_keys). destruct (C40_regularize _ _ _ _ _ Er) as [L R]. rewrite map_length in L.
    assert (Ei : forall t p f, nth_error merged t = Some (p, f) -> f = measured df p /\ fits_in nz n n p /\ t = index n n p).
    { intros t p f E. unfold merged in E. rewrite nth_error_map in E. destruct (nth_error (all_keys nz n) t) as [q|] eqn:Eq; [|discriminate]. injection E as <- <-. assert (Fq : fits_in nz n n q) by (apply nth_error_In in Eq; destruct q as [[k i] j]; now apply in_all_keys in Eq). split; [reflexivity|]. split; [assumption|].
      assert (N : NoDup (all_keys nz n)) by apply sorted_before_nodup, triples_sorted. assert (T : (t < length (all_keys nz n))%nat) by (apply nth_error_Some; congruence). apply (proj1 (NoDup_nth _ (0, 0, 0)%nat) N); [assumption|rewrite length_all_keys; now apply index_lt|]. rewrite nth_all_keys by assumption. now apply nth_error_nth. }
    split; [|split].
    - match goal with |- covers_grid _ _ (map _ ?X) => assert (E : map r_key X = map fst merged) end.
      { clear - L. revert mus L. induction merged as [|r m IH]; intros [|x mus] L; try discriminate; [reflexivity|]. cbn. f_equal. apply IH. cbn in L. lia. }
      rewrite E. unfold merged. rewrite map_map. cbn [fst]. rewrite map_id. apply all_keys_grid.
    - intros r Hr. apply in_rows in Hr; [|now rewrite L]. destruct Hr as (t & [p f] & m & E1 & E2 & ->). destruct (Ei _ _ _ E1) as (-> & Fp & _). cbn [r_key r_fit r_coord fst snd]. cbn zeta. repeat (split; [reflexivity|]).
      destruct p as [[k i] j]. cbn [coordinates centre same_point]. unfold bin_centre. repeat split; lra.
    - exists (at_bin n n mus). split.
      + intros r Hr. apply in_rows in Hr; [|now rewrite L]. destruct Hr as (t & [p f] & m & E1 & E2 & ->). destruct (Ei _ _ _ E1) as (_ & _ & ->). cbn [r_key r_fit fst snd set_mu mu]. unfold at_bin. symmetry. now apply nth_error_nth.
      + eapply regularized_ext; [| |exact R]; [|reflexivity]. intros p Fp. unfold at_bin, merged. rewrite map_map. cbn [snd]. rewrite nth_indep with (d' := mu (measured df p)) by (rewrite map_length, length_all_keys; now apply index_lt).
        rewrite (map_nth (fun p => mu (measured df p))). now rewrite nth_all_keys.
  Qed.
  (** densities: events per volume (in cm3) and hour *)
  Theorem C40_density df rows r q : compute_3D_map fit xy0 xy1 dt0 dt1 n nz s0 s1 df = Ok rows -> In r rows -> nevents (r_fit r) = Some q ->
    exists d t0 t1, r_density r = Some d /\ is_least (map ktime df) t0 /\ is_greatest (map ktime df) t1 /\
      d * ((dt1 - dt0) / qn nz * ((xy1 - xy0) / qn n) * ((xy1 - xy0) / qn n) * (1 # 1000)) * ((t1 - t0) / 3600) == q.
  Proof.
    unfold compute_3D_map. destruct (Nat.eqb_spec nz 0); [lia|]. destruct (Nat.eqb_spec n 0); [lia|]. cbn [orb]. destruct (fit_map fit xy0 xy1 dt0 dt1 n nz s0 s1 df) as [fits|] eqn:Ef; [|discriminate]. cbn [rbind]. set (merged := merge_maps _ _). set (volume := _ * (1 # 1000)).
    destruct (Qeqb_spec (hours df) 0) as [|Zh]; [discriminate|]. destruct (Qeqb_spec volume 0) as [|Zv]; [discriminate|]. cbn [orb]. destruct (regularize nz n n (map (fun r => mu (snd r)) merged)) as [mus|] eqn:Er; [|discriminate]. cbn [rbind]. injection 1 as <-. intros Hr Hq.
    destruct (C40_regularize _ _ _ _ _ Er) as [L _]. rewrite map_length in L. apply in_rows in Hr; [|now rewrite L]. destruct Hr as (t & [p f] & m & E1 & E2 & ->). cbn [r_fit r_density set_mu nevents fst snd] in *. rewrite Hq. cbn [vmap].
    unfold hours in *. assert (Nd : df <> []) by (intros ->; discriminate). destruct (maxQ (map ktime df)) as [b|] eqn:Eb; [|pose proof (max_greatest (map ktime df)) as M; rewrite Eb in M; apply map_eq_nil in M; contradiction].
    destruct (maxQ (map Qopp (map ktime df))) as [a|] eqn:Ea; [|pose proof (max_greatest (map Qopp (map ktime df))) as M; rewrite Ea in M; apply map_eq_nil, map_eq_nil in M; contradiction]. apply maxQ_greatest in Eb, Ea. destruct Ea as [Ea1 Ea2]. apply in_map_iff in Ea1. destruct Ea1 as (u & Eu & Hu).
    eexists _, u, b. split; [reflexivity|]. split; [split; [assumption|]; intros x Hx; specialize (Ea2 (- x) (in_map Qopp _ _ Hx)); rewrite <- Eu in Ea2; lra|]. split; [assumption|].
    assert (Ha : (b - - a) / 3600 == (b - u) / 3600) by (rewrite <- Eu; field). rewrite <- Ha. set (h := (b - - a) / 3600) in *. clearbody h volume. field. auto.
  Qed.
  (** The map is produced whenever some event is in range and the data do not last zero time. *)
  Theorem C40_total df e x y t s : In e df -> kX e = Some x -> kY e = Some y -> kDT e = Some t -> kS2e e = Some s -> xy0 <= x < xy1 -> xy0 <= y < xy1 -> dt0 <= t < dt1 -> s0 <= s < s1 ->
    (exists e1 e2, In e1 df /\ In e2 df /\ ~ ktime e1 == ktime e2) -> exists rows, compute_3D_map fit xy0 xy1 dt0 dt1 n nz s0 s1 df = Ok rows.
  Proof.
    intros He Ex Ey Et Es Rx Ry Rt Rs (e1 & e2 & T1 & T2 & T). unfold compute_3D_map. destruct (Nat.eqb_spec nz 0); [lia|]. destruct (Nat.eqb_spec n 0); [lia|]. cbn [orb].
    assert (F : exists fits, fit_map fit xy0 xy1 dt0 dt1 n nz s0 s1 df = Ok fits).
    { unfold fit_map. destruct (flat_map binned df) eqn:E; [|eauto]. exfalso. assert (B : exists r, In r (flat_map binned df)); [|destruct B as [r B]; rewrite E in B; destruct B]. apply in_range_iff in Rx, Ry, Rt, Rs.
      eexists. apply in_flat_map. exists e. split; [assumption|]. unfold KmapModel.binned. rewrite Ex, Ey, Et, Es, Rx, Ry, Rt, Rs. cbn. now left. }
    destruct F as (fits & Ef). rewrite Ef. cbn [rbind]. rewrite (merged_eq _ _ Ef).
    assert (P1 : 0 < qn n) by (apply qn_pos; lia). assert (P2 : 0 < qn nz) by (apply qn_pos; lia). assert (W1 : 0 < (xy1 - xy0) / qn n) by (apply Qlt_shift_div_l; lra). assert (W2 : 0 < (dt1 - dt0) / qn nz) by (apply Qlt_shift_div_l; lra).
    destruct (Qeqb_spec (hours df) 0) as [H0|_].
    { exfalso. unfold hours in H0. destruct (maxQ (map ktime df)) as [b|] eqn:Eb; [|pose proof (max_greatest (map ktime df)) as M; rewrite Eb in M; apply map_eq_nil in M; subst; destruct He].
      destruct (maxQ (map Qopp (map ktime df))) as [a|] eqn:Ea; [|pose proof (max_greatest (map Qopp (map ktime df))) as M; rewrite Ea in M; apply map_eq_nil, map_eq_nil in M; subst; destruct He]. apply maxQ_greatest in Eb, Ea. destruct Ea as [_ Ea], Eb as [_ Eb].
      assert (X : b - - a == 0). { assert (Y : (b - - a) / 3600 * 3600 == b - - a) by field. rewrite H0 in Y. lra. } pose proof (Ea _ (in_map Qopp _ _ (in_map ktime _ _ T1))). pose proof (Ea _ (in_map Qopp _ _ (in_map ktime _ _ T2))). pose proof (Eb _ (in_map ktime _ _ T1)). pose proof (Eb _ (in_map ktime _ _ T2)). apply T. lra. }
    destruct (Qeqb_spec ((dt1 - dt0) / qn nz * ((xy1 - xy0) / qn n) * ((xy1 - xy0) / qn n) * (1 # 1000)) 0) as [V0|_].
    { exfalso. assert (0 < (dt1 - dt0) / qn nz * ((xy1 - xy0) / qn n) * ((xy1 - xy0) / qn n) * (1 # 1000)) by (apply Qmult_lt_0_compat; [apply Qmult_lt_0_compat; [apply Qmult_lt_0_compat; assumption|assumption]|lra]). lra. }
    cbn [orb]. unfold regularize. rewrite !map_length, length_all_keys, Nat.eqb_refl. cbn [rbind]. eauto.
  Qed.
End Map.
Print Assumptions C40_map.
Print Assumptions C40_density.
Print Assumptions C40_total.
Definition ev_ex (x t : Q) : krevent := {| kX := Some x; kY := Some 1; kDT := Some 1; kS2e := Some 10; ktime := t |}.
Definition fit_ex (l : list Q) : fitted := {| nevents := Some (qn (length l)); mu := Some (meanQ l); sigma := None; mu_error := None; sigma_error := None |}.
Example C40_map_ex : exists rows, compute_3D_map fit_ex 0 4 0 2 2 1 0 20 [ev_ex 1 0; ev_ex 1 3600; ev_ex 9 7200] = Ok rows /\ map r_key rows = [(0, 0, 0); (0, 0, 1); (0, 1, 0); (0, 1, 1)]%nat /\ map (fun r => nevents (r_fit r)) rows = [Some 2; None; None; None].
Proof. eexists. split; [vm_compute; reflexivity|]. split; reflexivity. Qed.

(** The fit of a bin counts all its events, and its energy is missing, or positive and between half and one and a half times the median. *)
Theorem C40_fit std over_sqrt fit nbins min_events var med : is_median var med -> 0 < med ->
  let f := gaussian_fit std over_sqrt fit nbins min_events var in
  nevents f = Some (qn (length var)) /\ match mu f with None => True | Some m => (1 # 2) * med <= m < (3 # 2) * med \/ m == med end.
Proof.
  intros [N M] P. assert (E : median var == med).
  { destruct (median_is var N) as [_ (s & S1 & S2 & S3)]. destruct M as (s' & S1' & S2' & S3'). assert (Ps : Permutation s s') by (etransitivity; [exact S1|now symmetry]). assert (Eq : forall i, nth i s 0 == nth i s' 0).
    { clear - S2 S2' Ps. assert (L : length s = length s') by now apply Permutation_length. intros i. destruct (le_lt_dec (length s) i) as [K|K]; [rewrite !nth_overflow by lia; reflexivity|].
      assert (X : forall a b j, StronglySorted Qle a -> StronglySorted Qle b -> Permutation a b -> (j < length a)%nat -> nth j a 0 <= nth j b 0).
      { clear. intros a b j Sa Sb Pm Hj. apply Qnot_lt_le. intros Lt. set (v := nth j b 0) in *. assert (Lb : length a = length b) by now apply Permutation_length.
        assert (C1 : (j + 1 <= length (filter (fun x => Qle_bool x v) b))%nat).
        { rewrite <- (firstn_skipn (j + 1) b), filter_app, app_length, filter_all_in; [rewrite firstn_length; lia|]. intros x Hx. apply Qleb_le. apply (In_nth _ _ 0) in Hx. destruct Hx as (u & Hu & <-). rewrite firstn_length in Hu. assert (Nu : nth u (firstn (j + 1) b) 0 = nth u b 0) by (rewrite <- (firstn_skipn (j + 1) b) at 2; rewrite app_nth1 by (rewrite firstn_length; lia); reflexivity). rewrite Nu. unfold v. apply sorted_nth_le; [assumption|lia]. }
        assert (C2 : (length (filter (fun x => Qle_bool x v) a) <= j)%nat).
        { rewrite <- (firstn_skipn j a), filter_app, app_length, (filter_none_in _ (skipn j a)); [cbn [length]; pose proof (filter_length_le' (fun x => Qle_bool x v) (firstn j a)) as F; rewrite firstn_length in F; lia|].
          intros x Hx. apply Qleb_gt. apply (In_nth _ _ 0) in Hx. destruct Hx as (u & Hu & <-). rewrite skipn_length in Hu. assert (Nu : nth u (skipn j a) 0 = nth (j + u) a 0) by (rewrite <- (firstn_skipn j a) at 2; rewrite app_nth2 by (rewrite firstn_length; lia); rewrite firstn_length; f_equal; lia). rewrite Nu. eapply Qlt_le_trans; [exact Lt|]. apply sorted_nth_le; [assumption|lia]. }
        assert (Le : length (filter (fun x => Qle_bool x v) a) = length (filter (fun x => Qle_bool x v) b)); [|lia]. clear - Pm. clearbody v. induction Pm; cbn [filter]; repeat match goal with |- context [Qle_bool ?x ?y] => destruct (Qle_bool x y) end; cbn [length]; lia. }
      apply Qle_antisym; apply X; try assumption; [now symmetry|lia]. }
    pose proof (Permutation_length Ps) as Lp. destruct S3 as [(h & A1 & A2)|(h & A1 & A2)], S3' as [(h' & B1 & B2)|(h' & B1 & B2)]; try lia; assert (h = h') by lia; subst h'; rewrite A2, B2; rewrite !Eq; reflexivity. }
  assert (G : let f := get_median std over_sqrt var in nevents f = Some (qn (length var)) /\ match mu f with None => True | Some m => (1 # 2) * med <= m < (3 # 2) * med \/ m == med end).
  { unfold get_median. cbn zeta. cbn [nevents mu]. split; [reflexivity|]. destruct (length var <? 5)%nat; [exact I|now right]. }
  unfold gaussian_fit. destruct (length var <? min_events)%nat; [exact G|]. destruct (fit var nbins) as [[[[m s] me] se]|]; [|cbn; auto]. destruct m as [m|]; cbn [in_range_val negb]; [|exact G].
  destruct (in_range m _ _) eqn:R; cbn [negb]; [|exact G]. cbn. split; [reflexivity|]. left. apply in_range_iff in R. lra.
Qed.
Print Assumptions C40_fit.
Example C40_fit_ex : is_median [4; 1; 3] 3.
Proof. split; [discriminate|]. exists [1; 3; 4]. split; [change [4; 1; 3] with ([4] ++ [1; 3]); change [1; 3; 4] with ([1; 3] ++ [4]); apply Permutation_app_comm|]. split; [repeat constructor; discriminate|]. left. exists 1%nat. split; reflexivity. Qed.
