(** Lemmas for C20: bins and voxels *)
From Verif Require Import Base PeaksModel BuffersModel BuffersProofs BuffersEvent Arrays PaolinaModel PaolinaSpec.
Local Open Scope Q_scope.

Lemma count_map {A B} (f : A -> B) p l : count p (map f l) = count (fun a => p (f a)) l.
Proof. unfold count. induction l as [|a l IH]; cbn [map filter]; [reflexivity|]. destruct (p (f a)); cbn; now rewrite IH. Qed.

Lemma count_decreasing (p : nat -> bool) m : (forall i j, (i <= j)%nat -> p j = true -> p i = true) ->
  (count p (seq 0 m) <= m)%nat /\ forall i, (i < m)%nat -> ((i < count p (seq 0 m))%nat <-> p i = true).
Proof.
  intros Hp. induction m as [|m [IHle IH]]; [cbn; split; [lia|intros; lia]|].
  rewrite seq_S. unfold count in *. rewrite filter_app, app_length. cbn [filter Nat.add].
  destruct (p m) eqn:Em; cbn [length].
  - assert (E : length (filter p (seq 0 m)) = m).
    { destruct m as [|k]; [reflexivity|]. assert (k < length (filter p (seq 0 (S k))))%nat; [|lia]. apply IH; [lia|]. apply (Hp k (S k)); [lia|assumption]. }
    split; [lia|]. intros i Hi. rewrite E. split; [|lia]. intros _. apply (Hp i m); [lia|assumption].
  - split; [lia|]. intros i Hi. destruct (Nat.eq_dec i m) as [->|N].
    + rewrite Em. split; [|discriminate]. intros H. lia.
    + rewrite Nat.add_0_r. apply IH. lia.
Qed.

Lemma qnat_pos n : (1 <= n)%nat -> 0 < qnat n.
Proof. intros H. unfold qnat. change 0 with (inject_Z 0). rewrite <- Zlt_Qlt. lia. Qed.
Lemma qnat_le i j : (i <= j)%nat -> qnat i <= qnat j.
Proof. intros H. unfold qnat. rewrite <- Zle_Qle. lia. Qed.
Lemma qnat_S i : qnat (S i) == qnat i + 1.
Proof. unfold qnat. rewrite Nat2Z.inj_succ, <- Z.add_1_r, inject_Z_plus. reflexivity. Qed.

Section Axis.
  Variable a : axis.
  Hypothesis (Hn : (1 <= an a)%nat) (Hr : alo a < ahi a).
  Let w := (ahi a - alo a) / qnat (an a).

  Lemma w_pos : 0 < w.
  Proof. unfold w. apply Qlt_shift_div_l; [now apply qnat_pos|]. lra. Qed.
  Lemma edge_0 : edge a 0 == alo a.
  Proof. unfold edge. change (qnat 0) with 0. ring. Qed.
  Lemma edge_n : edge a (an a) == ahi a.
  Proof. unfold edge. pose proof (qnat_pos _ Hn). field. lra. Qed.
  Lemma edge_S i : edge a (S i) == edge a i + w.
  Proof. unfold edge. fold w. rewrite qnat_S. ring. Qed.
  Lemma edge_le i j : (i <= j)%nat -> edge a i <= edge a j.
  Proof. intros H. unfold edge. fold w. pose proof (qnat_le i j H). pose proof w_pos. nra. Qed.
  Lemma bin_size_w : bin_size a == w.
  Proof. unfold bin_size. rewrite edge_S. ring. Qed.
  Lemma bin_centre_w i : bin_centre a i == edge a i + w / 2.
  Proof. unfold bin_centre. rewrite edge_S. field. Qed.

  Lemma bins x : alo a < x < ahi a ->
    exists b, (b < an a)%nat /\ hist_bin a x = Some b /\ digit_bin a x = b /\ edge a b <= x < edge a (S b).
  Proof.
    intros Hx. unfold hist_bin, digit_bin, n_edges_le, edges. rewrite count_map.
    set (p := fun i => Qle_bool (edge a i) x).
    destruct (count_decreasing p (S (an a))) as [Hle Hc].
    { intros i j Hij Hj. unfold p in *. apply Qleb_le in Hj. apply Qleb_le. pose proof (edge_le i j Hij). lra. }
    set (k := count p (seq 0 (S (an a)))) in *.
    assert (H0 : (0 < k)%nat). { apply Hc; [lia|]. apply Qleb_le. rewrite edge_0. lra. }
    assert (Hk : (k <= an a)%nat).
    { destruct (Nat.lt_ge_cases (an a) k) as [C|C]; [|assumption]. exfalso. apply Hc in C; [|lia]. unfold p in C. apply Qleb_le in C. rewrite edge_n in C. lra. }
    destruct (Qeqb_spec x (edge a (an a))) as [C|_]; [exfalso; rewrite edge_n in C; lra|].
    exists (k - 1)%nat. split; [lia|]. destruct (Nat.leb_spec 1 k), (Nat.leb_spec k (an a)); try lia. cbn [andb].
    split; [reflexivity|]. split; [lia|]. split.
    - apply Qleb_le. change (p (k - 1)%nat = true). apply Hc; lia.
    - replace (S (k - 1)) with k by lia. apply Qnot_le_lt. intros C. assert (k < k)%nat; [|lia]. apply Hc; [lia|]. now apply Qleb_le.
  Qed.
End Axis.

Lemma make_axis_ok dim strict coords : 0 < dim -> coords <> [] ->
  let a := make_axis dim strict coords in
  (1 <= an a)%nat /\ alo a < ahi a /\ forall x, In x coords -> alo a < x < ahi a.
Proof.
  intros Hd Hne. cbv zeta. unfold make_axis. destruct coords as [|c l]; [easy|].
  destruct (fold_min l c) as [Hm1 Hm2]. destruct (fold_max l c) as [HM1 HM2].
  set (mn := fold_left Qmin l c) in *. set (mx := fold_left Qmax l c) in *. cbn [an alo ahi].
  set (n := Nat.max 1 (Z.to_nat (Qceiling ((mx - mn) / dim)))).
  set (half := if strict then qnat n * dim / 2 else (mx - mn) / 2).
  assert (Hh : (mx - mn) / 2 <= half).
  { unfold half. destruct strict; [|apply Qle_refl].
    assert (K : mx - mn <= qnat n * dim); [|unfold Qdiv; change (/ 2) with (1 # 2); lra].
    assert ((mx - mn) / dim <= qnat n).
    { eapply Qle_trans; [apply Qle_ceiling|]. unfold qnat. rewrite <- Zle_Qle. unfold n. lia. }
    apply Qle_trans with ((mx - mn) / dim * dim); [|nra]. setoid_replace ((mx - mn) / dim * dim) with (mx - mn) by (field; lra). lra. }
  assert (He : 0 < vox_eps) by reflexivity.
  split; [unfold n; lia|].
  assert (E1 : (mx + mn) / 2 - (mx - mn) / 2 == mn) by field. assert (E2 : (mx + mn) / 2 + (mx - mn) / 2 == mx) by field.
  unfold Qdiv in *. change (/ 2) with (1 # 2) in *. split; [lra|]. intros x Hx.
  assert (mn <= x <= mx) by (destruct Hx as [<-|Hx]; [lra|split; auto]). lra.
Qed.

Lemma flat_map_ext_in' {A B} (f g : A -> list B) l : (forall x, In x l -> f x = g x) -> flat_map f l = flat_map g l.
Proof. induction l as [|x l IH]; intros H; cbn; [reflexivity|]. rewrite (H x) by now left. f_equal. apply IH. intros; apply H; now right. Qed.

(** every element of [l] is in exactly one of the groups by key *)
Lemma group_perm {A K} (eqb : K -> K -> bool) (key : A -> K) (ks : list K) l :
  (forall i j, eqb i j = true <-> i = j) -> NoDup ks -> (forall x, In x l -> In (key x) ks) ->
  Permutation (flat_map (fun k => filter (fun x => eqb (key x) k) l) ks) l.
Proof.
  intros Heq ND. revert l. induction ND as [|k ks Hk ND IH]; intros l Hl; cbn [flat_map].
  - destruct l as [|x l]; [reflexivity|]. destruct (Hl x). now left.
  - assert (E : flat_map (fun k0 => filter (fun x => eqb (key x) k0) l) ks =
                flat_map (fun k0 => filter (fun x => eqb (key x) k0) (filter (fun x => negb (eqb (key x) k)) l)) ks).
    { apply flat_map_ext_in'. intros k0 H0. rewrite filter_filter. apply filter_ext. intros x.
      destruct (eqb (key x) k0) eqn:E0; [|now rewrite andb_false_r || reflexivity].
      apply Heq in E0. destruct (eqb (key x) k) eqn:E1; [|reflexivity]. apply Heq in E1. congruence. }
    rewrite E, IH.
    + clear. induction l as [|x l IH]; cbn [filter]; [reflexivity|]. destruct (eqb (key x) k); cbn [negb app]; [now constructor|].
      rewrite <- Permutation_middle. now constructor.
    + intros x Hx. apply filter_In in Hx. destruct Hx as [Hx N]. destruct (Hl x Hx) as [C|C]; [|assumption].
      apply negb_true_iff in N. assert (eqb (key x) k = true) by (apply Heq; congruence). congruence.
Qed.

Lemma index_eqb_eq i j : index_eqb i j = true <-> i = j.
Proof.
  destruct i as [[a b] c], j as [[a' b'] c']. cbn. rewrite !andb_true_iff, !Nat.eqb_eq. split; [intros [[-> ->] ->]; reflexivity|intros E; inversion E; auto].
Qed.

Lemma NoDup_list_prod {A B} (l : list A) (m : list B) : NoDup l -> NoDup m -> NoDup (list_prod l m).
Proof.
  intros Hl Hm. induction Hl as [|a l Ha Hl IH]; cbn [list_prod]; [constructor|].
  change (map (fun y : B => (a, y)) m) with (map (pair a) m).
  assert (H1 : NoDup (map (pair a) m)) by (apply FinFun.Injective_map_NoDup; [intros x y E; congruence|assumption]).
  revert H1. assert (D : forall x, In x (map (pair a) m) -> ~ In x (list_prod l m)).
  { intros [x y] H C. apply in_map_iff in H. destruct H as (y' & E & _). inversion E; subst. apply in_prod_iff in C. now apply Ha. }
  revert D. generalize (map (pair a) m). clear -IH. intros r D H. induction H as [|x r Hx H IHr]; cbn; [assumption|]. constructor.
  - rewrite in_app_iff. intros [C|C]; [contradiction|]. apply (D x); [now left|assumption].
  - apply IHr. intros y Hy. apply D. now right.
Qed.
Lemma NoDup_grid ax : NoDup (grid ax).
Proof. destruct ax as [[a b] c]. unfold grid. repeat apply NoDup_list_prod; apply seq_NoDup. Qed.
Lemma in_grid a b c i j k : In (i, j, k) (grid (a, b, c)) <-> (i < an a)%nat /\ (j < an b)%nat /\ (k < an c)%nat.
Proof. unfold grid. rewrite !in_prod_iff, !in_seq. lia. Qed.

Section Vox.
  Variables (hits : list phit) (dims : Q * Q * Q) (strict : bool).
  Hypothesis Hne : hits <> [].
  Hypothesis Hd : 0 < fst (fst dims) /\ 0 < snd (fst dims) /\ 0 < snd dims.
  Let ax := make_axes dims strict hits.
  Let a := fst (fst ax).
  Let b := snd (fst ax).
  Let c := snd ax.

  Lemma ax_eq : ax = (a, b, c).
  Proof. unfold a, b, c. destruct ax as [[? ?] ?]. reflexivity. Qed.

  Lemma map_ne {B} (f : phit -> B) : map f hits <> [].
  Proof. destruct hits; [easy|discriminate]. Qed.
  Lemma ax_a : (1 <= an a)%nat /\ alo a < ahi a /\ forall h, In h hits -> alo a < px h < ahi a.
  Proof.
    destruct dims as [[dx dy] dz]. cbn in Hd. unfold a, ax, make_axes. cbn [fst snd].
    destruct (make_axis_ok dx strict (map px hits)) as (H1 & H2 & H3); [tauto|apply map_ne|]. split; [assumption|]. split; [assumption|].
    intros h Hh. apply H3. now apply in_map.
  Qed.
  Lemma ax_b : (1 <= an b)%nat /\ alo b < ahi b /\ forall h, In h hits -> alo b < py h < ahi b.
  Proof.
    destruct dims as [[dx dy] dz]. cbn in Hd. unfold b, ax, make_axes. cbn [fst snd].
    destruct (make_axis_ok dy strict (map py hits)) as (H1 & H2 & H3); [tauto|apply map_ne|]. split; [assumption|]. split; [assumption|].
    intros h Hh. apply H3. now apply in_map.
  Qed.
  Lemma ax_c : (1 <= an c)%nat /\ alo c < ahi c /\ forall h, In h hits -> alo c < pz h < ahi c.
  Proof.
    destruct dims as [[dx dy] dz]. cbn in Hd. unfold c, ax, make_axes. cbn [fst snd].
    destruct (make_axis_ok dz strict (map pz hits)) as (H1 & H2 & H3); [tauto|apply map_ne|]. split; [assumption|]. split; [assumption|].
    intros h Hh. apply H3. now apply in_map.
  Qed.

  Lemma hit_index h : In h hits ->
    exists i j k, hist_index ax h = Some (i, j, k) /\ digit_index ax h = (i, j, k) /\ In (i, j, k) (grid ax) /\
    edge a i <= px h < edge a (S i) /\ edge b j <= py h < edge b (S j) /\ edge c k <= pz h < edge c (S k).
  Proof.
    intros Hh. destruct ax_a as (A1 & A2 & A3), ax_b as (B1 & B2 & B3), ax_c as (C1 & C2 & C3).
    destruct (bins a A1 A2 _ (A3 h Hh)) as (i & Hi & Ei & Di & Bi).
    destruct (bins b B1 B2 _ (B3 h Hh)) as (j & Hj & Ej & Dj & Bj).
    destruct (bins c C1 C2 _ (C3 h Hh)) as (k & Hk & Ek & Dk & Bk).
    exists i, j, k. rewrite ax_eq. cbn [hist_index digit_index]. rewrite Ei, Ej, Ek, Di, Dj, Dk, in_grid. auto 10.
  Qed.

  Definition hits_at (i : index) : list phit := filter (fun h => index_eqb (digit_index ax h) i) hits.

  Lemma content_hits i : hist_content ax hits i == hits_energy (hits_at i).
  Proof.
    unfold hist_content, hits_energy, hits_at. assert (E : filter (fun h => match hist_index ax h with Some j => index_eqb i j | None => false end) hits =
      filter (fun h => index_eqb (digit_index ax h) i) hits); [|now rewrite E].
    apply filter_ext_in. intros h Hh. destruct (hit_index h Hh) as (x & y & z & E1 & E2 & _). rewrite E1, E2.
    apply eq_true_iff_eq. rewrite !index_eqb_eq. split; congruence.
  Qed.

  Lemma groups_perm : Permutation (flat_map hits_at (grid ax)) hits.
  Proof.
    unfold hits_at. apply (group_perm index_eqb (digit_index ax)); [apply index_eqb_eq|apply NoDup_grid|].
    intros h Hh. destruct (hit_index h Hh) as (x & y & z & _ & E2 & H & _). now rewrite E2.
  Qed.

  Definition filled_bins : list index := filter (fun i => negb (Qeqb (hist_content ax hits i) 0)) (grid ax).
  Definition voxels : list voxel := mapi (make_voxel ax hits) filled_bins.

  Lemma voxelize_eq : voxelize_hits hits dims strict = Ok voxels.
  Proof.
    assert (E : forall l, l <> [] -> voxelize_hits l dims strict = Ok (mapi (make_voxel (make_axes dims strict l) l) (filter (fun i => negb (Qeqb (hist_content (make_axes dims strict l) l i) 0)) (grid (make_axes dims strict l))))).
    { intros [|x l] H; [easy|reflexivity]. }
    now rewrite E.
  Qed.

  Lemma mapi_from_proj {A B C} (f : nat -> A -> B) (g : B -> C) (h : A -> C) l : (forall n x, g (f n x) = h x) ->
    forall k, map g (mapi_from k f l) = map h l.
  Proof. intros H. induction l as [|x l IH]; intros k; cbn; [reflexivity|]. now rewrite H, IH. Qed.

  Lemma voxels_hits : map vhits voxels = map hits_at filled_bins.
  Proof. unfold voxels, mapi. apply mapi_from_proj. intros n [[x y] z]. unfold make_voxel, hits_at. generalize ax. intros [[? ?] ?]. reflexivity. Qed.
  Lemma voxels_E : map vE voxels = map (hist_content ax hits) filled_bins.
  Proof. unfold voxels, mapi. apply mapi_from_proj. intros n [[x y] z]. unfold make_voxel. generalize ax. intros [[? ?] ?]. reflexivity. Qed.

  Lemma voxels_total : voxels_energy voxels == hits_energy hits.
  Proof.
    unfold voxels_energy, sumF. rewrite voxels_E. change (sumF (hist_content ax hits) filled_bins == hits_energy hits).
    unfold filled_bins. rewrite <- (sumF_perm pe _ _ groups_perm). unfold hits_energy. rewrite sumF_flat_map.
    rewrite sumF_filter_if. apply sumF_ext. intros i _. fold (hits_energy (hits_at i)). rewrite <- content_hits.
    destruct (Qeqb_spec (hist_content ax hits i) 0) as [E|E]; cbn [negb]; [now rewrite E|reflexivity].
  Qed.

  Lemma in_voxels v : In v voxels -> exists i j k n, v = make_voxel ax hits n (i, j, k) /\ In (i, j, k) filled_bins.
  Proof.
    unfold voxels, mapi. intros H. assert (K : forall l m, In v (mapi_from m (make_voxel ax hits) l) -> exists n i, v = make_voxel ax hits n i /\ In i l).
    { induction l as [|x l IH]; intros m; cbn; [easy|]. intros [<-|Hv]; [exists m, x; split; [reflexivity|now left]|].
      destruct (IH _ Hv) as (n & i & ? & ?). exists n, i. split; [assumption|now right]. }
    destruct (K _ _ H) as (n & [[i j] k] & E & Hi). exists i, j, k, n. auto.
  Qed.

  Lemma voxel_inside v h : In v voxels -> In h (vhits v) -> inside v h /\ In h hits.
  Proof.
    intros Hv Hh. destruct (in_voxels v Hv) as (i & j & k & n & -> & _). unfold make_voxel in *. rewrite ax_eq in *. cbn [vhits] in Hh.
    apply filter_In in Hh. destruct Hh as [Hh E]. apply index_eqb_eq in E. split; [|assumption].
    destruct (hit_index h Hh) as (i' & j' & k' & _ & E2 & _ & B1 & B2 & B3). rewrite ax_eq in E2. rewrite E in E2. inversion E2; subst i' j' k'.
    destruct ax_a as (A1 & A2 & _), ax_b as (B1' & B2' & _), ax_c as (C1 & C2 & _).
    unfold inside. cbn [vx vy vz szx szy szz]. rewrite !bin_centre_w, !bin_size_w. rewrite edge_S in B1, B2, B3.
    
    assert (K : forall e w x, e <= x < e + w -> e + w / 2 - w / 2 <= x < e + w / 2 + w / 2).
    { clear. intros e w x H. setoid_replace (e + w / 2 - w / 2) with e by ring. setoid_replace (e + w / 2 + w / 2) with (e + w) by field. exact H. }
    split; [|split]; apply K; assumption.
  Qed.
End Vox.
