(** C49: the constants of a run *)
From Coq Require Import String.
From Verif Require Import Base Arrays PeaksModel PmapioModel PmapioProofs DbModel DbSpec.
Local Open Scope Z_scope.

(** ---- sorting ---- *)
Lemma insert_by_perm {A} (le : A -> A -> bool) x l : Permutation (insert_by le x l) (x :: l).
Proof. induction l as [|y l IH]; cbn; [reflexivity|]. destruct (le x y); [reflexivity|]. rewrite IH. apply perm_swap. Qed.
Lemma sort_by_perm {A} (le : A -> A -> bool) l : Permutation (sort_by le l) l.
Proof. induction l as [|x l IH]; cbn; [reflexivity|]. rewrite insert_by_perm. now constructor. Qed.
Lemma in_sort_by {A} (le : A -> A -> bool) l x : In x (sort_by le l) <-> In x l.
Proof. split; apply Permutation_in; [|symmetry]; apply sort_by_perm. Qed.
Section Sort.
  Context {A : Type} (le : A -> A -> bool).
  Hypothesis total : forall a b, le a b = true \/ le b a = true.
  Hypothesis trans : forall a b c, le a b = true -> le b c = true -> le a c = true.
  Notation ble := (fun a b => le a b = true).
  Lemma insert_by_sorted x l : StronglySorted ble l -> StronglySorted ble (insert_by le x l).
  Proof.
    induction 1 as [|y l S IH F]; cbn; [repeat constructor|]. destruct (le x y) eqn:E.
    - constructor; [now constructor|]. constructor; [assumption|]. eapply Forall_impl; [|exact F]. intros z Hz. cbn beta in *. eauto.
    - constructor; [assumption|]. apply Forall_forall. intros z Hz. apply (Permutation_in _ (insert_by_perm le x l)) in Hz. destruct Hz as [<-|Hz]; [destruct (total x y); congruence|]. rewrite Forall_forall in F. now apply F.
  Qed.
  Lemma sort_by_sorted l : StronglySorted ble (sort_by le l).
  Proof. induction l as [|x l IH]; cbn; [constructor|]. now apply insert_by_sorted. Qed.
  Lemma sorted_perm_eq l1 l2 : StronglySorted ble l1 -> StronglySorted ble l2 -> Permutation l1 l2 -> (forall a b, In a l1 -> In b l1 -> le a b = true -> le b a = true -> a = b) -> l1 = l2.
  Proof.
    intros S1. revert l2. induction S1 as [|a l1 S1 IH F1]; intros l2 S2 P Anti; [apply Permutation_nil in P; now subst|].
    destruct S2 as [|b l2 S2 F2]; [symmetry in P; apply Permutation_nil in P; discriminate|]. rewrite Forall_forall in F1, F2.
    assert (E : a = b). { destruct (Permutation_in a P (or_introl eq_refl)) as [->|Ha]; [reflexivity|]. assert (Hb : In b (a :: l1)) by (apply (Permutation_in b (Permutation_sym P)); now left). destruct Hb as [->|Hb]; [reflexivity|]. apply Anti; [now left|now right|now apply F1|now apply F2]. }
    subst b. f_equal. apply IH; [assumption|now apply Permutation_cons_inv in P|]. intros x y Hx Hy. apply Anti; now right.
  Qed.
  Lemma sort_by_eq l L : Permutation l L -> StronglySorted ble L -> (forall a b, In a L -> In b L -> le a b = true -> le b a = true -> a = b) -> sort_by le l = L.
  Proof.
    intros P S Anti. apply sorted_perm_eq; [apply sort_by_sorted|assumption| |].
    - now rewrite sort_by_perm.
    - intros a b Ha Hb. apply Anti; (eapply Permutation_in; [|eassumption]); now rewrite sort_by_perm.
  Qed.
End Sort.
Lemma sorted_key_nodup {A} (key : A -> Z) l : StronglySorted (fun a b => (key a <=? key b) = true) l -> NoDup (map key l) -> StronglySorted Z.lt (map key l).
Proof.
  induction 1 as [|a l S IH F]; intros N; cbn in *; [constructor|]. inversion N as [|? ? N1 N2]; subst. constructor; [now apply IH|]. apply Forall_forall. intros k Hk. apply in_map_iff in Hk. destruct Hk as (b & <- & Hb). rewrite Forall_forall in F. specialize (F b Hb). apply Z.leb_le in F.
  assert (key a <> key b) by (intros E; apply N1; rewrite E; now apply in_map). lia.
Qed.

(** ---- rows in force ---- *)
Lemma valid_covers {A} run (d : dated A) : valid run d = true <-> covers run d.
Proof.
  unfold valid, covers. rewrite andb_true_iff, Z.leb_le. destruct (upto d) as [m|].
  - rewrite Z.leb_le. split; [intros; exists m; now split|]. intros (hi & E & H). injection E as <-. lia.
  - split; [easy|]. now intros (hi & E & _).
Qed.
Lemma valid_open_covers {A} run (d : dated A) : valid_open run d = true <-> covers_open run d.
Proof.
  unfold valid_open, covers_open. rewrite andb_true_iff, Z.leb_le. destruct (upto d) as [m|].
  - rewrite Z.leb_le. split; [intros [H1 H2]; split; [assumption|right; now exists m]|]. intros [H1 [H2|(hi & E & H2)]]; [easy|]. injection E as <-. lia.
  - split; [intros [H1 H2]; split; [assumption|now left]|now intros [H1 _]].
Qed.
Lemma in_current {A} run (t : list (dated A)) a : In a (current run t) <-> in_force run t a.
Proof. unfold current, in_force. rewrite in_map_iff. split; intros (d & H); exists d; rewrite filter_In, valid_covers in *; tauto. Qed.
Lemma in_current_open {A} run (t : list (dated A)) a : In a (current_open run t) <-> in_force_open run t a.
Proof. unfold current_open, in_force_open. rewrite in_map_iff. split; intros (d & H); exists d; rewrite filter_In, valid_open_covers in *; tauto. Qed.
Lemma one_per_nodup {A B} (cov : dated A -> Prop) (v : dated A -> bool) (key : A -> B) t : (forall d, v d = true <-> cov d) -> one_per cov key t -> NoDup (map key (map what (filter v t))).
Proof.
  intros Hv. induction 1 as [|d t F P IH]; cbn; [constructor|]. destruct (v d) eqn:E; [|assumption]. cbn. constructor; [|assumption]. rewrite map_map. intros K. apply in_map_iff in K. destruct K as (e & Ke & He). apply filter_In in He. destruct He as [He1 He2]. rewrite Forall_forall in F. apply Hv in E. apply Hv in He2. now apply (F e He1 E He2).
Qed.
Lemma in_left_join {A} (l : list A) (P : A -> Prop) o : (forall a, In a l <-> P a) -> In o (left_join l) <-> some_or_none P o.
Proof.
  intros H. unfold left_join, some_or_none. destruct l as [|x l].
  - cbn. destruct o as [a|]; [rewrite <- H; cbn; split; [intros [K|K]; [discriminate|easy]|easy]|]. split; [intros _ a K; apply H in K; exact K|now left].
  - destruct o as [a|]; [rewrite in_map_iff, <- H; split; [intros (b & E & Hb); now injection E as ->|intros Ha; now exists a]|]. split; [rewrite in_map_iff; now intros (b & E & _)|]. intros K. exfalso. apply (K x), H. now left.
Qed.
Lemma left_join_short {A} (l : list A) : (length l <= 1)%nat -> length (left_join l) = 1%nat.
Proof. destruct l as [|a [|b l]]; cbn; lia. Qed.
Lemma nodup_filter_key {A B} (key : A -> B) (eqb : B -> B -> bool) (b : B) l : (forall x y, eqb x y = true <-> x = y) -> NoDup (map key l) -> (length (filter (fun a => eqb (key a) b) l) <= 1)%nat.
Proof.
  intros He. induction l as [|a l IH]; cbn; intros N; [lia|]. inversion N as [|? ? N1 N2]; subst. specialize (IH N2). destruct (eqb (key a) b) eqn:E; [|assumption]. apply He in E. cbn.
  assert (F : filter (fun a => eqb (key a) b) l = []); [|rewrite F; cbn; lia]. apply filter_none_in. intros x Hx. destruct (eqb (key x) b) eqn:E2; [|reflexivity]. apply He in E2. exfalso. apply N1. rewrite E, <- E2. now apply in_map.
Qed.
Lemma filter_map_current {A} (v : dated A -> bool) t (p : A -> bool) a (P : A -> Prop) : (forall x, In x (map what (filter v t)) <-> P x) -> In a (filter p (map what (filter v t))) <-> P a /\ p a = true.
Proof. intros H. now rewrite filter_In, H. Qed.
Lemma used_effective run : used_run run (effective_run run).
Proof. unfold used_run, effective_run, run_number_for_mc. destruct (Z.eqb_spec run 0); [left; lia|right]. lia. Qed.
Lemma used_run_eq run run' : used_run run run' -> run' = effective_run run.
Proof. unfold used_run, effective_run, run_number_for_mc. destruct (Z.eqb_spec run 0); lia. Qed.

(** the rows of a run are those made of constants valid in the run *)
Theorem C49_pmts d run run' r : used_run run run' ->
  In r (data_pmt d run) <-> exists p m n k g b, pmt_constants d run' p m n k g b /\ pmt_made_of r p m n k g b.
Proof.
  intros Hr. apply used_run_eq in Hr. subst run'. unfold data_pmt. set (run' := effective_run run). rewrite in_sort_by, in_flat_map.
  assert (L1 : forall p k, In k (left_join (filter (fun k => k =? p_sensor p) (current run' (masks d)))) <-> some_or_none (fun k => in_force run' (masks d) k /\ k = p_sensor p) k) by (intros; apply in_left_join; intros; now rewrite filter_In, in_current, Z.eqb_eq).
  assert (L2 : forall p g, In g (left_join (filter (fun g => g_sensor g =? p_sensor p) (current run' (gains d)))) <-> some_or_none (fun g => in_force run' (gains d) g /\ g_sensor g = p_sensor p) g) by (intros; apply in_left_join; intros; now rewrite filter_In, in_current, Z.eqb_eq).
  assert (L3 : forall m n, In n (left_join (filter (fun n => n_elec n =? m_elec m) (current_open run' (noises d)))) <-> some_or_none (fun n => in_force_open run' (noises d) n /\ n_elec n = m_elec m) n) by (intros; apply in_left_join; intros; now rewrite filter_In, in_current_open, Z.eqb_eq).
  assert (L4 : forall m b, In b (left_join (filter (fun b => b_elec b =? m_elec m) (current_open run' (blrs d)))) <-> some_or_none (fun b => in_force_open run' (blrs d) b /\ b_elec b = m_elec m) b) by (intros; apply in_left_join; intros; now rewrite filter_In, in_current_open, Z.eqb_eq).
  split.
  - intros (p & Hp & H). apply in_flat_map in H. destruct H as (m & Hm & H). apply in_flat_map in H. destruct H as (n & Hn & H). apply in_flat_map in H. destruct H as (k & Hk & H). apply in_flat_map in H. destruct H as (g & Hg & H). apply in_map_iff in H. destruct H as (b & <- & Hb).
    rewrite filter_In, in_current, andb_true_iff, Z.ltb_lt in Hp. rewrite filter_In, in_current, Z.eqb_eq in Hm. exists p, m, n, k, g, b. split.
    + unfold pmt_constants. rewrite <- L1, <- L2, <- L3, <- L4. tauto.
    + unfold pmt_made_of, pmt_row. cbn. repeat split; try (now destruct b); try (now destruct g); try (now destruct n); now destruct k.
  - intros (p & m & n & k & g & b & (H1 & H2 & H3 & H4 & H5 & H6 & H7 & H8 & H9) & E). exists p. rewrite filter_In, in_current, andb_true_iff, Z.ltb_lt. split; [tauto|]. apply in_flat_map. exists m. rewrite filter_In, in_current, Z.eqb_eq. split; [tauto|].
    apply in_flat_map. exists n. split; [now apply L3|]. apply in_flat_map. exists k. split; [now apply L1|]. apply in_flat_map. exists g. split; [now apply L2|]. apply in_map_iff. exists b. split; [|now apply L4].
    destruct E as (E1 & E2 & E3 & E4 & E5 & E6 & E7 & E8 & E9 & E10 & E11). destruct r. cbn in *. unfold pmt_row. subst.
    f_equal; try (now destruct b); try (now destruct g); try (now destruct n). destruct k, pm_active; try reflexivity; [discriminate (proj1 E6 eq_refl)|discriminate (proj2 E6 eq_refl)].
Qed.
Print Assumptions C49_pmts.

Lemma flat_map_keys {A B} (ka : A -> Z) (kb : B -> Z) (f : A -> list B) l : (forall a b, In b (f a) -> kb b = ka a) -> (forall a, In a l -> (length (f a) <= 1)%nat) -> NoDup (map ka l) -> NoDup (map kb (flat_map f l)).
Proof.
  intros Hk Hl. induction l as [|a l IH]; cbn; intros N; [constructor|]. inversion N as [|? ? N1 N2]; subst. specialize (IH (fun x Hx => Hl x (or_intror Hx)) N2). pose proof (Hl a (or_introl eq_refl)) as La. pose proof (Hk a) as Ka. destruct (f a) as [|b [|c q]]; cbn in La; [assumption| |lia]. cbn. constructor; [|assumption].
  rewrite (Ka b (or_introl eq_refl)). intros K. apply in_map_iff in K. destruct K as (x & Ex & Hx). apply in_flat_map in Hx. destruct Hx as (a' & Ha' & Hx). apply Hk in Hx. apply N1. rewrite <- Ex, Hx. now apply in_map.
Qed.
Lemma length_flat_map_one {A B} (f : A -> list B) l : (length l <= 1)%nat -> (forall a, length (f a) = 1%nat) -> (length (flat_map f l) <= 1)%nat.
Proof. destruct l as [|a [|b l]]; cbn; intros H1 H2; [lia| |lia]. rewrite app_length, H2. cbn. lia. Qed.
Lemma length_flat_map_exact {A B} (f : A -> list B) l : length l = 1%nat -> (forall a, length (f a) = 1%nat) -> length (flat_map f l) = 1%nat.
Proof. destruct l as [|a [|b l]]; cbn; intros H1 H2; [lia| |lia]. rewrite app_length, H2. cbn. lia. Qed.
Lemma map_filter_nodup {A B} (key : A -> B) p l : NoDup (map key l) -> NoDup (map key (filter p l)).
Proof. induction l as [|a l IH]; cbn; intros N; [constructor|]. inversion N as [|? ? N1 N2]; subst. destruct (p a); [|now apply IH]. cbn. constructor; [|now apply IH]. intros K. apply N1. apply in_map_iff in K. destruct K as (x & <- & Hx). apply filter_In in Hx. now apply in_map. Qed.

(** one row per PMT, in the order of the sensors, when at most one constant of each kind is valid *)
Theorem C49_one_row_per_pmt d run run' : used_run run run' -> one_per (covers run') p_sensor (positions d) -> one_per (covers run') m_sensor (mappings d) -> one_per (covers run') (fun k => k) (masks d) ->
  one_per (covers run') g_sensor (gains d) -> one_per (covers_open run') n_elec (noises d) -> one_per (covers_open run') b_elec (blrs d) ->
  StronglySorted Z.lt (map pm_sensor (data_pmt d run)).
Proof.
  intros Hr U1 U2 U3 U4 U5 U6. apply used_run_eq in Hr. subst run'. unfold data_pmt. set (run' := effective_run run) in *.
  apply sorted_key_nodup.
  - apply sort_by_sorted; intros; rewrite ?Z.leb_le in *; lia.
  - eapply Permutation_NoDup; [apply Permutation_map; symmetry; apply sort_by_perm|].
    apply (flat_map_keys p_sensor).
    + intros p r H. apply in_flat_map in H. destruct H as (m & _ & H). apply in_flat_map in H. destruct H as (n & _ & H). apply in_flat_map in H. destruct H as (k & _ & H). apply in_flat_map in H. destruct H as (g & _ & H). apply in_map_iff in H. now destruct H as (b & <- & _).
    + intros p Hp. apply length_flat_map_one.
      * apply (nodup_filter_key m_sensor Z.eqb); [apply Z.eqb_eq|]. apply (one_per_nodup (covers run')); [apply valid_covers|assumption].
      * intros m. apply length_flat_map_exact; [apply left_join_short, (nodup_filter_key n_elec Z.eqb); [apply Z.eqb_eq|]; apply (one_per_nodup (covers_open run')); [apply valid_open_covers|assumption]|]. intros n.
        apply length_flat_map_exact; [apply left_join_short, (nodup_filter_key (fun k => k) Z.eqb); [apply Z.eqb_eq|]; apply (one_per_nodup (covers run')); [apply valid_covers|assumption]|]. intros k.
        apply length_flat_map_exact; [apply left_join_short, (nodup_filter_key g_sensor Z.eqb); [apply Z.eqb_eq|]; apply (one_per_nodup (covers run')); [apply valid_covers|assumption]|]. intros g.
        rewrite map_length. apply left_join_short, (nodup_filter_key b_elec Z.eqb); [apply Z.eqb_eq|]; apply (one_per_nodup (covers_open run')); [apply valid_open_covers|assumption].
    + apply map_filter_nodup. apply (one_per_nodup (covers run')); [apply valid_covers|assumption].
Qed.
Print Assumptions C49_one_row_per_pmt.

(** the same for the SiPMs; when none has a measured sigma they all get the default one *)
Lemma sipm_rows d run r : In r (flat_map (fun p => flat_map (fun g => flat_map (fun m => map (fun k => sipm_row p g m k)
        (left_join (filter (fun k => k =? p_sensor p) (current run (masks d)))))
       (filter (fun m => m_sensor m =? p_sensor p) (current run (mappings d))))
      (filter (fun g => g_sensor g =? p_sensor p) (current run (gains d))))
     (filter (fun p => 100 <? p_sensor p) (current run (positions d)))) <-> exists p g m k, sipm_constants d run p g m k /\ sipm_made_of r p g m k (g_sigma g).
Proof.
  assert (L1 : forall p k, In k (left_join (filter (fun k => k =? p_sensor p) (current run (masks d)))) <-> some_or_none (fun k => in_force run (masks d) k /\ k = p_sensor p) k) by (intros; apply in_left_join; intros; now rewrite filter_In, in_current, Z.eqb_eq).
  rewrite in_flat_map. split.
  - intros (p & Hp & H). apply in_flat_map in H. destruct H as (g & Hg & H). apply in_flat_map in H. destruct H as (m & Hm & H). apply in_map_iff in H. destruct H as (k & <- & Hk).
    rewrite filter_In, in_current, Z.ltb_lt in Hp. rewrite filter_In, in_current, Z.eqb_eq in Hg. rewrite filter_In, in_current, Z.eqb_eq in Hm. exists p, g, m, k. split.
    + unfold sipm_constants. rewrite <- L1. tauto.
    + unfold sipm_made_of, sipm_row. cbn. repeat split; now destruct k.
  - intros (p & g & m & k & (H1 & H2 & H3 & H4 & H5 & H6 & H7) & E). exists p. rewrite filter_In, in_current, Z.ltb_lt. split; [tauto|]. apply in_flat_map. exists g. rewrite filter_In, in_current, Z.eqb_eq. split; [tauto|].
    apply in_flat_map. exists m. rewrite filter_In, in_current, Z.eqb_eq. split; [tauto|]. apply in_map_iff. exists k. split; [|now apply L1].
    destruct E as (E1 & E2 & E3 & E4 & E5 & E6 & E7 & E8 & E9). destruct r. cbn in *. unfold sipm_row. subst. f_equal. destruct k, sp_active; try reflexivity; [discriminate (proj1 E3 eq_refl)|discriminate (proj2 E3 eq_refl)].
Qed.
Theorem C49_sipms d run run' r : used_run run run' ->
  In r (data_sipm d run) <-> exists p g m k sigma, sipm_constants d run' p g m k /\ sipm_made_of r p g m k sigma /\ (no_sigma d run' /\ sigma = 224 # 100 \/ ~ no_sigma d run' /\ sigma = g_sigma g)%Q.
Proof.
  intros Hr. apply used_run_eq in Hr. subst run'. unfold data_sipm. set (run' := effective_run run).
  match goal with |- context [existsb _ ?rows] => set (rs := rows) end. assert (Hrs : forall r, In r rs <-> exists p g m k, sipm_constants d run' p g m k /\ sipm_made_of r p g m k (g_sigma g)) by (intros q; unfold rs; rewrite in_sort_by; apply sipm_rows).
  assert (He : existsb (fun s => negb (Qeqb (sp_sigma s) 0)) rs = false <-> no_sigma d run').
  { split.
    - intros E p g m k H. assert (Hin : In (sipm_row p g m k) rs) by (apply Hrs; exists p, g, m, k; split; [assumption|]; unfold sipm_made_of, sipm_row; cbn; repeat split; now destruct k).
      destruct (Qeqb_spec (g_sigma g) 0) as [K|K]; [assumption|]. exfalso. assert (T : existsb (fun s => negb (Qeqb (sp_sigma s) 0)) rs = true); [|congruence]. apply existsb_exists. exists (sipm_row p g m k). split; [assumption|]. cbn. destruct (Qeqb_spec (g_sigma g) 0); [contradiction|reflexivity].
    - intros H. apply Bool.not_true_iff_false. intros T. apply existsb_exists in T. destruct T as (s & Hs & T). apply Hrs in Hs. destruct Hs as (p & g & m & k & Hc & Hm). destruct Hm as (_ & _ & _ & _ & _ & _ & _ & _ & Es). rewrite Es in T. destruct (Qeqb_spec (g_sigma g) 0) as [K|K]; [discriminate|]. apply K, (H p g m k Hc). }
  destruct (existsb _ rs).
  - rewrite Hrs. split.
    + intros (p & g & m & k & H1 & H2). exists p, g, m, k, (g_sigma g). split; [assumption|]. split; [assumption|]. right. split; [|reflexivity]. intros K. apply He in K. discriminate.
    + intros (p & g & m & k & s & H1 & H2 & [[K _]|[_ ->]]); [apply He in K; discriminate|]. now exists p, g, m, k.
  - rewrite in_map_iff. split.
    + intros (q & <- & Hq). apply Hrs in Hq. destruct Hq as (p & g & m & k & H1 & H2). exists p, g, m, k, (224 # 100)%Q. split; [assumption|]. split; [|left; split; [now apply He|reflexivity]]. unfold sipm_made_of in *. cbn. tauto.
    + intros (p & g & m & k & s & H1 & H2 & [[_ ->]|[K _]]); [|exfalso; apply K, He; reflexivity]. exists (sipm_row p g m k). split.
      * destruct H2 as (E1 & E2 & E3 & E4 & E5 & E6 & E7 & E8 & E9). destruct r. cbn in *. unfold with_sigma, sipm_row, default_sigma. cbn. subst. f_equal. destruct k, sp_active; try reflexivity; [discriminate (proj1 E3 eq_refl)|discriminate (proj2 E3 eq_refl)].
      * apply Hrs. exists p, g, m, k. split; [assumption|]. unfold sipm_made_of, sipm_row. cbn. repeat split; now destruct k.
Qed.
Print Assumptions C49_sipms.
Theorem C49_one_row_per_sipm d run run' : used_run run run' -> one_per (covers run') p_sensor (positions d) -> one_per (covers run') m_sensor (mappings d) -> one_per (covers run') (fun k => k) (masks d) ->
  one_per (covers run') g_sensor (gains d) -> StronglySorted Z.lt (map sp_sensor (data_sipm d run)).
Proof.
  intros Hr U1 U2 U3 U4. apply used_run_eq in Hr. subst run'. unfold data_sipm. set (run' := effective_run run) in *.
  match goal with |- context [existsb _ ?rows] => set (rs := rows) end. assert (S : StronglySorted Z.lt (map sp_sensor rs)).
  { apply sorted_key_nodup.
    - apply sort_by_sorted; intros; rewrite ?Z.leb_le in *; lia.
    - eapply Permutation_NoDup; [apply Permutation_map; symmetry; apply sort_by_perm|]. apply (flat_map_keys p_sensor).
      + intros p r H. apply in_flat_map in H. destruct H as (m & _ & H). apply in_flat_map in H. destruct H as (n & _ & H). apply in_map_iff in H. now destruct H as (b & <- & _).
      + intros p Hp. assert (Hm : (length (filter (fun m => (m_sensor m =? p_sensor p)%Z) (current run' (mappings d))) <= 1)%nat) by (apply (nodup_filter_key m_sensor Z.eqb); [apply Z.eqb_eq|]; apply (one_per_nodup (covers run')); [apply valid_covers|assumption]).
        assert (Hg : (length (filter (fun g => (g_sensor g =? p_sensor p)%Z) (current run' (gains d))) <= 1)%nat) by (apply (nodup_filter_key g_sensor Z.eqb); [apply Z.eqb_eq|]; apply (one_per_nodup (covers run')); [apply valid_covers|assumption]).
        destruct (filter (fun g => g_sensor g =? p_sensor p) (current run' (gains d))) as [|g [|g' gs]]; cbn in Hg |- *; [lia| |lia]. rewrite app_nil_r. apply length_flat_map_one; [assumption|]. intros m. rewrite map_length.
        apply left_join_short, (nodup_filter_key (fun k => k) Z.eqb); [apply Z.eqb_eq|]; apply (one_per_nodup (covers run')); [apply valid_covers|assumption].
      + apply map_filter_nodup. apply (one_per_nodup (covers run')); [apply valid_covers|assumption]. }
  destruct (existsb _ rs); [assumption|]. rewrite map_map. exact S.
Qed.
Print Assumptions C49_one_row_per_sipm.

(** two constants valid in the same run give two rows to a sensor *)
Definition example_db (g2 : list (dated gain)) : db :=
  {| positions := [{| from := 0; upto := Some 100; what := {| p_sensor := 1000; p_label := ""; p_x := 5; p_y := 6 |} |}; {| from := 0; upto := Some 100; what := {| p_sensor := 2; p_label := "PMT2"; p_x := 1; p_y := 2 |} |};
                   {| from := 0; upto := Some 100; what := {| p_sensor := 1; p_label := "PMT1"; p_x := 1; p_y := 3 |} |}];
     mappings := [{| from := 0; upto := Some 100; what := {| m_sensor := 1000; m_elec := 1 |} |}; {| from := 0; upto := Some 100; what := {| m_sensor := 1; m_elec := 7 |} |}; {| from := 5; upto := Some 100; what := {| m_sensor := 2; m_elec := 8 |} |}];
     masks := [{| from := 0; upto := Some 100; what := 1 |}; {| from := 0; upto := None; what := 2 |}];
     gains := {| from := 0; upto := Some 100; what := {| g_sensor := 1; g_centroid := -20; g_err_centroid := 1; g_sigma := 3; g_err_sigma := 1 |} |} ::
              {| from := 0; upto := Some 100; what := {| g_sensor := 1000; g_centroid := 17; g_err_centroid := 1; g_sigma := 0; g_err_sigma := 1 |} |} :: g2;
     noises := [{| from := 0; upto := None; what := {| n_elec := 7; n_rms := 1 # 2 |} |}]; blrs := [] |}.
Theorem C49_overlap_refuted : exists d run, map pm_sensor (data_pmt d run) = [1; 1; 2].
Proof. exists (example_db [{| from := 6; upto := Some 8; what := {| g_sensor := 1; g_centroid := 21; g_err_centroid := 1; g_sigma := 3; g_err_sigma := 1 |} |}]), 7. reflexivity. Qed.
Print Assumptions C49_overlap_refuted.
Example C49_example : let d := example_db [] in
  (one_per (covers 7) p_sensor (positions d) /\ one_per (covers 7) m_sensor (mappings d) /\ one_per (covers 7) (fun k => k) (masks d) /\ one_per (covers 7) g_sensor (gains d) /\ one_per (covers_open 7) n_elec (noises d) /\ one_per (covers_open 7) b_elec (blrs d)) /\
  data_pmt d (-7) = [ {| pm_sensor := 1; pm_channel := 7; pm_label := "PMT1"; pm_active := false; pm_x := 1; pm_y := 3; pm_blr := None; pm_gain := 20; pm_gain_err := Some 1%Q; pm_noise := Some (1 # 2)%Q; pm_sigma := Some (3, 1)%Q |};
                   {| pm_sensor := 2; pm_channel := 8; pm_label := "PMT2"; pm_active := true; pm_x := 1; pm_y := 2; pm_blr := None; pm_gain := 0; pm_gain_err := None; pm_noise := None; pm_sigma := None |} ] /\
  data_sipm d 7 = [ {| sp_sensor := 1000; sp_channel := 1; sp_active := true; sp_x := 5; sp_y := 6; sp_gain := 17; sp_gain_err := 1; sp_sigma := 224 # 100; sp_err_sigma := 1 |} ].
Proof. split; [|split; reflexivity]. unfold one_per. repeat split; repeat constructor; intros _ _; discriminate. Qed.

(** ---- the noise of the SiPMs ---- *)
Lemma distinct_spec l : NoDup (distinct l) /\ forall x, In x (distinct l) <-> In x l.
Proof.
  induction l as [|x l [IH1 IH2]]; cbn; [split; [constructor|easy]|]. destruct (existsb (Z.eqb x) (distinct l)) eqn:E.
  - split; [assumption|]. intros y. rewrite IH2. split; [now right|]. intros [<-|H]; [|assumption]. apply existsb_exists in E. destruct E as (z & Hz & E). apply Z.eqb_eq in E. subst. now apply IH2.
  - split.
    + constructor; [|assumption]. intros K. assert (T : existsb (Z.eqb x) (distinct l) = true) by (apply existsb_exists; exists x; split; [assumption|apply Z.eqb_refl]). congruence.
    + intros y. cbn. now rewrite IH2.
Qed.
Lemma sorted_lt_le l : StronglySorted Z.lt l -> StronglySorted (fun a b => (a <=? b) = true) l.
Proof. induction 1 as [|a l S IH F]; constructor; [assumption|]. eapply Forall_impl; [|exact F]. intros b Hb. cbn beta in *. lia. Qed.
Lemma sorted_lt_nodup l : StronglySorted Z.lt l -> NoDup l.
Proof. induction 1 as [|a l S IH F]; constructor; [|assumption]. intros K. rewrite Forall_forall in F. specialize (F a K). lia. Qed.
Lemma sorted_app {A} (R : A -> A -> Prop) l1 l2 : StronglySorted R l1 -> StronglySorted R l2 -> (forall a b, In a l1 -> In b l2 -> R a b) -> StronglySorted R (l1 ++ l2).
Proof. induction 1 as [|a l1 S IH F]; intros S2 H; cbn; [assumption|]. constructor; [apply IH; [assumption|]; intros; apply H; [now right|assumption]|]. apply Forall_app. split; [assumption|]. apply Forall_forall. intros b Hb. apply H; [now left|assumption]. Qed.
Lemma sorted_map {A B} (R : A -> A -> Prop) (R' : B -> B -> Prop) (f : A -> B) l : StronglySorted R l -> (forall a b, R a b -> R' (f a) (f b)) -> StronglySorted R' (map f l).
Proof. intros S H. induction S as [|a l S IH F]; cbn; constructor; [assumption|]. apply Forall_map. eapply Forall_impl; [|exact F]. intros. now apply H. Qed.
Definition pdf_of (prob : Z -> Z -> Q) (sb : Z * Z) : pdf_row := {| f_sensor := fst sb; f_bin := snd sb; f_prob := prob (fst sb) (snd sb) |}.
Lemma sorted_prod S B prob : StronglySorted Z.lt S -> StronglySorted Z.lt B -> StronglySorted (fun a b => pdf_le a b = true) (map (pdf_of prob) (list_prod S B)).
Proof.
  intros HS HB. induction HS as [|s S HS IH F]; cbn; [constructor|]. rewrite map_app, map_map. apply sorted_app; [|assumption|].
  - apply (sorted_map Z.lt); [assumption|]. intros a b H. unfold pdf_le, pdf_of. cbn. lia.
  - intros a b Ha Hb. apply in_map_iff in Ha, Hb. destruct Ha as (x & <- & Hx), Hb as ([s' y] & <- & Hy). apply in_prod_iff in Hy. rewrite Forall_forall in F. unfold pdf_le, pdf_of. cbn. specialize (F s' (proj1 Hy)). lia.
Qed.
Lemma pdf_of_anti prob S B a b : In a (map (pdf_of prob) (list_prod S B)) -> In b (map (pdf_of prob) (list_prod S B)) -> pdf_le a b = true -> pdf_le b a = true -> a = b.
Proof. intros Ha Hb H1 H2. apply in_map_iff in Ha, Hb. destruct Ha as ([s x] & <- & _), Hb as ([s' y] & <- & _). unfold pdf_le, pdf_of in *. cbn in *. assert (s = s') by lia. assert (x = y) by lia. now subst. Qed.
Lemma reshape_concat {A} m (ls : list (list A)) : Forall (fun l => length l = m) ls -> reshape (length ls) m (concat ls) = Ok ls.
Proof.
  intros H. unfold reshape. assert (L : length (concat ls) = (length ls * m)%nat) by (induction H as [|l ls Hl H IH]; cbn; [reflexivity|]; rewrite app_length, IH, Hl; reflexivity). rewrite L, Nat.eqb_refl. f_equal.
  apply (list_ext_nth _ _ []); [now rewrite map_length, seq_length|]. intros i Hi. rewrite map_length, seq_length in Hi. rewrite (nth_indep _ [] ((fun i => slice (i * m) (i * m + m) (concat ls)) 0%nat)) by (now rewrite map_length, seq_length). rewrite map_nth with (f := fun i => slice (i * m) (i * m + m) (concat ls)), seq_nth by assumption. cbn [Nat.add]. clear L.
  revert i Hi. induction H as [|l ls Hl H IH]; intros i Hi; [cbn in Hi; lia|]. cbn [concat]. unfold slice in *. destruct i as [|i].
  - cbn [Nat.mul Nat.add skipn nth]. rewrite Nat.sub_0_r, <- Hl. rewrite firstn_app, Nat.sub_diag, firstn_all, firstn_O. apply app_nil_r.
  - cbn [nth]. cbn in Hi. rewrite <- (IH i ltac:(lia)). rewrite skipn_app, (skipn_all2 l) by nia. cbn [app]. f_equal; [lia|]. f_equal. nia.
Qed.
Lemma list_prod_concat {A B C} (g : A * B -> C) (S : list A) (B' : list B) : map g (list_prod S B') = concat (map (fun s => map (fun b => g (s, b)) B') S).
Proof. induction S as [|s S IH]; cbn; [reflexivity|]. now rewrite map_app, map_map, IH. Qed.

(** when the table has a probability for each sensor and bin, the noise of each sensor is its own, bin by bin *)
Theorem C49_noise bs ps run S B base prob : S <> [] -> StronglySorted Z.lt S -> StronglySorted Z.lt B ->
  Permutation (current_open (Z.abs run) bs) (map (fun s => {| l_sensor := s; l_energy := base s |}) S) ->
  Permutation (current_open (Z.abs run) ps) (map (fun sb => {| f_sensor := fst sb; f_bin := snd sb; f_prob := prob (fst sb) (snd sb) |}) (list_prod S B)) ->
  sipm_noise bs ps run = Ok (map (fun s => map (prob s) B) S, B, map base S).
Proof.
  intros Hn HS HB P1 P2. unfold sipm_noise. change (fun sb => _) with (pdf_of prob) in P2.
  rewrite (sort_by_eq (fun a b => l_sensor a <=? l_sensor b) ltac:(cbn beta; intros; lia) ltac:(cbn beta; intros; lia) _ _ P1).
  2: { apply (sorted_map Z.lt); [assumption|]. intros a b H. cbn. lia. }
  2: { intros a b Ha Hb H1 H2. apply in_map_iff in Ha, Hb. destruct Ha as (x & <- & _), Hb as (y & <- & _). cbn in *. assert (x = y) by lia. now subst. }
  rewrite (sort_by_eq pdf_le ltac:(unfold pdf_le; intros; lia) ltac:(unfold pdf_le; intros; lia) _ _ P2 (sorted_prod S B prob HS HB) (pdf_of_anti prob S B)).
  assert (Eb : sort_by Z.leb (distinct (map f_bin (current_open (Z.abs run) ps))) = B).
  { apply sort_by_eq; [intros; lia|intros; lia| |now apply sorted_lt_le|intros; lia]. destruct (distinct_spec (map f_bin (current_open (Z.abs run) ps))) as [D1 D2]. apply NoDup_Permutation; [assumption|now apply sorted_lt_nodup|]. intros b. rewrite D2.
    rewrite (Permutation_map f_bin P2), map_map. cbn. rewrite in_map_iff. split.
    - intros ([s b'] & <- & H). apply in_prod_iff in H. tauto.
    - intros Hb. destruct S as [|s S]; [easy|]. exists (s, b). split; [reflexivity|]. apply in_prod_iff. split; [now left|assumption]. }
  rewrite Eb. rewrite !map_map. cbn [l_energy]. rewrite map_length. rewrite list_prod_concat. cbn [pdf_of f_prob fst snd].
  replace (length S) with (length (map (fun s => map (prob s) B) S)) by apply map_length.
  rewrite reshape_concat; [reflexivity|]. apply Forall_map, Forall_forall. intros s _. apply map_length.
Qed.
Print Assumptions C49_noise.
Example C49_noise_example : sipm_noise [{| from := 0; upto := None; what := {| l_sensor := 1001; l_energy := 5 |} |}; {| from := 0; upto := None; what := {| l_sensor := 1000; l_energy := 4 |} |}]
    [{| from := 0; upto := None; what := {| f_sensor := 1001; f_bin := 1; f_prob := 1 |} |}; {| from := 0; upto := None; what := {| f_sensor := 1000; f_bin := 2; f_prob := 0 |} |};
     {| from := 0; upto := None; what := {| f_sensor := 1001; f_bin := 2; f_prob := 2 |} |}; {| from := 0; upto := None; what := {| f_sensor := 1000; f_bin := 1; f_prob := 7 |} |}] 4 = Ok ([[7; 0]; [1; 2]]%Q, [1; 2], [4; 5]%Q).
Proof. reflexivity. Qed.
(** with a bin missing for one sensor and repeated for another the rows are not those of the sensors *)
Theorem C49_noise_incomplete_refuted : exists bs ps, sipm_noise bs ps 4 = Ok ([[1; 5]; [6; 7]]%Q, [1; 2], [4; 5]%Q) /\ forall r, In r ps -> f_sensor (what r) = 1000 -> f_prob (what r) <> 5%Q.
Proof.
  exists [{| from := 0; upto := None; what := {| l_sensor := 1000; l_energy := 4 |} |}; {| from := 0; upto := None; what := {| l_sensor := 1001; l_energy := 5 |} |}],
    [{| from := 0; upto := None; what := {| f_sensor := 1000; f_bin := 1; f_prob := 1 |} |}; {| from := 0; upto := None; what := {| f_sensor := 1001; f_bin := 1; f_prob := 5 |} |};
     {| from := 0; upto := None; what := {| f_sensor := 1001; f_bin := 1; f_prob := 6 |} |}; {| from := 0; upto := None; what := {| f_sensor := 1001; f_bin := 2; f_prob := 7 |} |}].
  split; [reflexivity|]. intros r [<-|[<-|[<-|[<-|[]]]]]; cbn; easy.
Qed.
Print Assumptions C49_noise_incomplete_refuted.

(** ---- the cache ---- *)
Lemma look_spec {K V} (eqb : K -> K -> bool) (f : K -> V) k c : (forall a b, eqb a b = true <-> a = b) -> Forall (fun kv => snd kv = f (fst kv)) c -> match look eqb k c with Some (v, c') => v = f k /\ Forall (fun kv => snd kv = f (fst kv)) c' | None => True end.
Proof.
  intros He. induction c as [|[k' v] c IH]; cbn; intros F; [exact I|]. inversion F as [|? ? F1 F2]; subst. cbn in F1. destruct (eqb k k') eqn:E; [apply He in E; subst; now split|]. specialize (IH F2). destruct (look eqb k c) as [[w c']|]; [|exact I]. destruct IH as [I1 I2]. split; [assumption|]. now constructor.
Qed.
(** for every history of calls, each call gives what the function gives *)
Theorem C49_cache {K V} (eqb : K -> K -> bool) (f : K -> V) n ks : (forall a b, eqb a b = true <-> a = b) -> cached_calls eqb f n [] ks = map f ks.
Proof.
  intros He. assert (G : forall ks c, Forall (fun kv => snd kv = f (fst kv)) c -> cached_calls eqb f n c ks = map f ks); [|apply G; constructor].
  clear ks. induction ks as [|k ks IH]; intros c F; cbn; [reflexivity|]. unfold cached_call. pose proof (look_spec eqb f k c He F) as L. destruct (look eqb k c) as [[v c']|].
  - destruct L as [-> L]. f_equal. apply IH. now constructor.
  - f_equal. apply IH. apply Forall_forall. intros kv Hkv. apply (Forall_forall (fun kv => snd kv = f (fst kv)) ((k, f k) :: c)); [now constructor|]. rewrite <- (firstn_skipn n ((k, f k) :: c)). apply in_or_app. now left.
Qed.
Print Assumptions C49_cache.
Example C49_cache_example : cached_calls Z.eqb (fun k => k * k) 2 [] [3; 4; 3; 5; 4; 4] = [9; 16; 9; 25; 16; 16].
Proof. reflexivity. Qed.
