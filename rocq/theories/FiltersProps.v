(** C36 and C37: selections of peaks *)
From Verif Require Import Base PeaksModel PmapioModel FiltersModel FiltersSpec.
Local Open Scope nat_scope.

Lemma mk_minmax_ok r m : mk_minmax (fst r) (snd r) = Ok m -> m = {| mn := fst r; mx := snd r |} /\ ordered r.
Proof. unfold mk_minmax, ordered. destruct (Qle_bool _ _) eqn:E; [|discriminate]. intros H. injection H as <-. split; [reflexivity|now apply Qle_bool_iff]. Qed.
Lemma mk_minmax_iff r : ordered r -> mk_minmax (fst r) (snd r) = Ok {| mn := fst r; mx := snd r |}.
Proof. unfold mk_minmax, ordered. intros H. apply Qle_bool_iff in H. now rewrite H. Qed.
Lemma mk_minmax_bad r : ~ ordered r -> mk_minmax (fst r) (snd r) = Err AssertionError.
Proof. unfold mk_minmax, ordered. intros H. destruct (Qle_bool _ _) eqn:E; [apply Qle_bool_iff in E; easy|reflexivity]. Qed.

Definition selector_of (c : limits) : selector :=
  let m r := {| mn := fst r; mx := snd r |} in
  {| sl_s1n := m (s1_n c); sl_s1e := m (s1_e c); sl_s1w := m (s1_w c); sl_s1h := m (s1_h c); sl_s1_ethr := s1_thr c;
     sl_s2n := m (s2_n c); sl_s2e := m (s2_e c); sl_s2w := m (s2_w c); sl_s2h := m (s2_h c); sl_nsi := m (s2_nsipm c); sl_s2_ethr := s2_thr c |}.

Lemma mk_selector_ok c s : mk_selector c = Ok s -> s = selector_of c /\ limits_ok c.
Proof.
  unfold mk_selector, limits_ok. intros H.
  destruct (mk_minmax (fst (s1_n c)) _) eqn:E1; cbn [rbind] in H; [|discriminate]. apply mk_minmax_ok in E1.
  destruct (mk_minmax (fst (s1_e c)) _) eqn:E2; cbn [rbind] in H; [|discriminate]. apply mk_minmax_ok in E2.
  destruct (mk_minmax (fst (s1_w c)) _) eqn:E3; cbn [rbind] in H; [|discriminate]. apply mk_minmax_ok in E3.
  destruct (mk_minmax (fst (s1_h c)) _) eqn:E4; cbn [rbind] in H; [|discriminate]. apply mk_minmax_ok in E4.
  destruct (mk_minmax (fst (s2_n c)) _) eqn:E5; cbn [rbind] in H; [|discriminate]. apply mk_minmax_ok in E5.
  destruct (mk_minmax (fst (s2_e c)) _) eqn:E6; cbn [rbind] in H; [|discriminate]. apply mk_minmax_ok in E6.
  destruct (mk_minmax (fst (s2_w c)) _) eqn:E7; cbn [rbind] in H; [|discriminate]. apply mk_minmax_ok in E7.
  destruct (mk_minmax (fst (s2_h c)) _) eqn:E8; cbn [rbind] in H; [|discriminate]. apply mk_minmax_ok in E8.
  destruct (mk_minmax (fst (s2_nsipm c)) _) eqn:E9; cbn [rbind] in H; [|discriminate]. apply mk_minmax_ok in E9.
  injection H as <-. destruct E1 as [-> ?], E2 as [-> ?], E3 as [-> ?], E4 as [-> ?], E5 as [-> ?], E6 as [-> ?], E7 as [-> ?], E8 as [-> ?], E9 as [-> ?].
  split; [reflexivity|tauto].
Qed.
Lemma mk_selector_iff c : limits_ok c -> mk_selector c = Ok (selector_of c).
Proof. intros (H1 & H2 & H3 & H4 & H5 & H6 & H7 & H8 & H9). unfold mk_selector. rewrite !mk_minmax_iff by assumption. reflexivity. Qed.

Lemma contains_between r x : contains {| mn := fst r; mx := snd r |} x = true <-> between r x.
Proof. unfold contains, between. cbn. now rewrite andb_true_iff, !Qle_bool_iff. Qed.

Lemma valid_s1 c p : valid_peak p (s1_thr c) (sl_s1e (selector_of c)) (sl_s1w (selector_of c)) (sl_s1h (selector_of c)) None = true <-> good_s1 c p.
Proof. unfold valid_peak, good_s1. cbn [selector_of sl_s1e sl_s1w sl_s1h]. rewrite !andb_true_iff, !contains_between. tauto. Qed.
Lemma valid_s2 c p : valid_peak p (s2_thr c) (sl_s2e (selector_of c)) (sl_s2w (selector_of c)) (sl_s2h (selector_of c)) (Some (sl_nsi (selector_of c))) = true <-> good_s2 c p.
Proof. unfold valid_peak, good_s2. cbn [selector_of sl_s2e sl_s2w sl_s2h sl_nsi]. rewrite !andb_true_iff, !contains_between. tauto. Qed.

Lemma how_many_map {A} (P : A -> Prop) f (Hf : forall a, f a = true <-> P a) l n : how_many P l n <-> n = count_nonzero (map f l).
Proof.
  revert n. induction l as [|a l IH]; intros n; cbn.
  - split; [now inversion 1|intros ->; constructor].
  - unfold count_nonzero in *. cbn. destruct (f a) eqn:E; cbn [length].
    + split; [inversion 1; subst; [f_equal; now apply IH|exfalso; apply Hf in E; easy]|intros ->; constructor; [now apply Hf|now apply IH]].
    + split; [inversion 1; subst; [exfalso; match goal with H : P a |- _ => apply Hf in H; congruence end|now apply IH]|intros ->; constructor 3; [rewrite <- Hf; congruence|now apply IH]].
Qed.

Lemma mark_forall2 {A} (P : A -> Prop) f (Hf : forall a, f a = true <-> P a) l : Forall2 (fun a b => b = true <-> P a) l (map f l).
Proof. induction l; constructor; auto. Qed.

(** every peak is marked according to the limits, the event according to the numbers of good peaks *)
Theorem C36_selection c s pm : mk_selector c = Ok s ->
  Forall2 (fun p b => b = true <-> good_s1 c p) (s1s pm) (s1_peaks (pmap_filter s pm)) /\
  Forall2 (fun p b => b = true <-> good_s2 c p) (s2s pm) (s2_peaks (pmap_filter s pm)) /\
  (passed (pmap_filter s pm) = true <->
   exists n1 n2, how_many (good_s1 c) (s1s pm) n1 /\ how_many (good_s2 c) (s2s pm) n2 /\ between (s1_n c) (qn n1) /\ between (s2_n c) (qn n2)).
Proof.
  intros H. apply mk_selector_ok in H. destruct H as [-> _].
  split; [apply (mark_forall2 (good_s1 c)), (valid_s1 c)|]. split; [apply (mark_forall2 (good_s2 c)), (valid_s2 c)|].
  unfold pmap_filter. cbn [passed]. rewrite andb_true_iff. cbn [selector_of sl_s1n sl_s2n]. rewrite !contains_between. split.
  - intros [A B]. eexists _, _. split; [apply (how_many_map _ _ (valid_s1 c)); reflexivity|]. split; [apply (how_many_map _ _ (valid_s2 c)); reflexivity|]. split; assumption.
  - intros (n1 & n2 & A & B & C & D). apply (how_many_map _ _ (valid_s1 c)) in A. apply (how_many_map _ _ (valid_s2 c)) in B. subst. split; assumption.
Qed.
Print Assumptions C36_selection.

(** a selector exists exactly when no range is upside down *)
Theorem C36_limits c : (limits_ok c <-> exists s, mk_selector c = Ok s) /\ (~ limits_ok c -> mk_selector c = Err AssertionError).
Proof.
  split; [split; [intros H; exists (selector_of c); now apply mk_selector_iff|intros (s & H); now apply mk_selector_ok in H]|].
  intros H. destruct (mk_selector c) as [s|e] eqn:E; [apply mk_selector_ok in E; easy|]. revert E. unfold mk_selector, mk_minmax.
  repeat (destruct (Qle_bool _ _); cbn [rbind]; [|intros K; injection K as <-; reflexivity]). discriminate.
Qed.
Print Assumptions C36_limits.

Lemma map2_forall {A} (f : bool -> bool -> bool) (P Q R : A -> Prop) (Hf : forall a x y, (x = true <-> P a) -> (y = true <-> Q a) -> (f x y = true <-> R a)) l a b :
  Forall2 (fun p x => x = true <-> P p) l a -> Forall2 (fun p x => x = true <-> Q p) l b -> Forall2 (fun p x => x = true <-> R p) l (map2 f a b).
Proof. intros H. revert b. induction H as [|p x l a Hx H IH]; intros b Hb; inversion Hb; subst; cbn; constructor; eauto. Qed.

(** two selections of the same event combine peak by peak *)
Theorem C36_combination c1 c2 s1 s2 pm : mk_selector c1 = Ok s1 -> mk_selector c2 = Ok s2 ->
  exists a o, sel_and (pmap_filter s1 pm) (pmap_filter s2 pm) = Ok a /\ sel_or (pmap_filter s1 pm) (pmap_filter s2 pm) = Ok o /\
  Forall2 (fun p b => b = true <-> good_s1 c1 p /\ good_s1 c2 p) (s1s pm) (s1_peaks a) /\
  Forall2 (fun p b => b = true <-> good_s2 c1 p /\ good_s2 c2 p) (s2s pm) (s2_peaks a) /\
  Forall2 (fun p b => b = true <-> good_s1 c1 p \/ good_s1 c2 p) (s1s pm) (s1_peaks o) /\
  Forall2 (fun p b => b = true <-> good_s2 c1 p \/ good_s2 c2 p) (s2s pm) (s2_peaks o) /\
  (passed a = true <-> passed (pmap_filter s1 pm) = true /\ passed (pmap_filter s2 pm) = true) /\
  (passed o = true <-> passed (pmap_filter s1 pm) = true \/ passed (pmap_filter s2 pm) = true).
Proof.
  intros H1 H2. destruct (C36_selection c1 s1 pm H1) as (A1 & A2 & _), (C36_selection c2 s2 pm H2) as (B1 & B2 & _).
  unfold sel_and, sel_or. rewrite <- !(Forall2_len _ _ _ A1), <- !(Forall2_len _ _ _ B1), <- !(Forall2_len _ _ _ A2), <- !(Forall2_len _ _ _ B2), !Nat.eqb_refl. cbn [negb orb].
  eexists _, _. split; [reflexivity|]. split; [reflexivity|]. cbn [passed s1_peaks s2_peaks]. rewrite andb_true_iff, orb_true_iff.
  split; [|split; [|split; [|split; [|tauto]]]]; eapply map2_forall; try eassumption; intros p x y Hx Hy; rewrite ?andb_true_iff, ?orb_true_iff, Hx, Hy; tauto.
Qed.
Print Assumptions C36_combination.

(** selections of events with different numbers of peaks do not combine *)
Theorem C36_different_events a b : length (s1_peaks a) <> length (s1_peaks b) \/ length (s2_peaks a) <> length (s2_peaks b) ->
  sel_and a b = Err ValueError /\ sel_or a b = Err ValueError.
Proof.
  intros H. unfold sel_and, sel_or. destruct (negb _ || negb _) eqn:E; [split; reflexivity|]. apply orb_false_iff in E. destruct E as [E1 E2]. apply negb_false_iff, Nat.eqb_eq in E1, E2. tauto.
Qed.
Print Assumptions C36_different_events.

(** ---- C37 ---- *)
Definition conf_params (c : trigger_conf) : trigger_params :=
  {| tp_min_channels := tc_min_channels c; tp_charge := {| mn := (fst (tc_charge c) * tc_ratio c)%Q; mx := (snd (tc_charge c) * tc_ratio c)%Q |};
     tp_height := {| mn := (fst (tc_height c) * tc_ratio c)%Q; mx := (snd (tc_height c) * tc_ratio c)%Q |}; tp_width := {| mn := fst (tc_width c); mx := snd (tc_width c) |} |}.
Lemma select_trigger_ok c f : select_trigger_filter (Some (true, c)) = Ok f -> f = trigger_filter (conf_params c).
Proof.
  unfold select_trigger_filter. intros H.
  destruct (mk_minmax (fst (tc_height c)) _) as [h|] eqn:E1; cbn [rbind] in H; [|discriminate]. apply mk_minmax_ok in E1. destruct E1 as [-> _].
  destruct (mk_minmax (fst (tc_charge c)) _) as [q|] eqn:E2; cbn [rbind] in H; [|discriminate]. apply mk_minmax_ok in E2. destruct E2 as [-> _].
  destruct (mk_minmax (fst (tc_width c)) _) as [w|] eqn:E3; cbn [rbind] in H; [|discriminate]. apply mk_minmax_ok in E3. destruct E3 as [-> _].
  unfold minmax_mul in H. cbn [mn mx] in H.
  destruct (mk_minmax (fst (tc_charge c) * _) _) as [q|] eqn:E4; cbn [rbind] in H; [|discriminate]. apply (mk_minmax_ok (_, _)) in E4. destruct E4 as [-> _].
  destruct (mk_minmax (fst (tc_height c) * _) _) as [h|] eqn:E5; cbn [rbind] in H; [|discriminate]. apply (mk_minmax_ok (_, _)) in E5. destruct E5 as [-> _].
  injection H as <-. reflexivity.
Qed.

Definition trig (c : trigger_conf) (p : peak) : bool :=
  above_upto (tp_width (conf_params c)) (peak_width p) && above_upto (tp_charge (conf_params c)) (total_energy p) && above_upto (tp_height (conf_params c)) (height p).
Lemma trig_spec c p : trig c p = true <-> triggers c p.
Proof.
  unfold trig, triggers, within_limits, above_upto, peak_width, total_energy. cbn [conf_params tp_width tp_charge tp_height mn mx scaled fst snd].
  rewrite !andb_true_iff, !Qle_bool_iff. rewrite <- !Qltb_lt. tauto.
Qed.

Lemma trigger_peaks_spec c l n : (n < tc_min_channels c)%Z ->
  trigger_peaks (conf_params c) l n =
  if (tc_min_channels c <=? n + Z.of_nat (length (filter (trig c) l)))%Z then (true, tc_min_channels c) else (false, n + Z.of_nat (length (filter (trig c) l)))%Z.
Proof.
  revert n. induction l as [|p l IH]; intros n Hn.
  - cbn. destruct (Z.leb_spec (tc_min_channels c) (n + 0)); [lia|]. f_equal. lia.
  - cbn [filter]. assert (E : trigger_peaks (conf_params c) (p :: l) n =
      if trig c p then if (n + 1 =? tc_min_channels c)%Z then (true, n + 1)%Z else trigger_peaks (conf_params c) l (n + 1) else trigger_peaks (conf_params c) l n).
    { cbn [trigger_peaks]. unfold trig. cbn [conf_params tp_min_channels]. destruct (above_upto _ (peak_width p)); [|reflexivity]. destruct (above_upto _ (total_energy p)); [|reflexivity]. destruct (above_upto _ (height p)); reflexivity. }
    rewrite E. destruct (trig c p); [|now apply IH]. cbn [length]. destruct (Z.eqb_spec (n + 1) (tc_min_channels c)) as [K|K].
    + destruct (Z.leb_spec (tc_min_channels c) (n + Z.of_nat (S (length (filter (trig c) l))))); [|lia]. f_equal. assumption.
    + rewrite IH by lia. replace (n + 1 + Z.of_nat (length (filter (trig c) l)))%Z with (n + Z.of_nat (S (length (filter (trig c) l))))%Z by lia. reflexivity.
Qed.
Lemma trigger_peaks_never c l n : (tc_min_channels c <= n)%Z -> exists m, trigger_peaks (conf_params c) l n = (false, m) /\ (n <= m)%Z.
Proof.
  revert n. induction l as [|p l IH]; intros n Hn; [exists n; split; [reflexivity|lia]|]. cbn [trigger_peaks]. cbn [tp_min_channels conf_params].
  assert (E : (n + 1 =? tc_min_channels c)%Z = false) by (apply Z.eqb_neq; lia).
  destruct (above_upto _ (peak_width p)); [|now apply IH]. destruct (above_upto _ (total_energy p)); [|now apply IH]. destruct (above_upto _ (height p)); [|now apply IH]. rewrite E. destruct (IH (n + 1)%Z ltac:(lia)) as (m & -> & Hm). exists m. split; [reflexivity|lia].
Qed.
Lemma trigger_channels_spec c d n : (n < tc_min_channels c)%Z ->
  trigger_channels (conf_params c) d n = (tc_min_channels c <=? n + Z.of_nat (length (filter (trig c) (flat_map snd d))))%Z.
Proof.
  revert n. induction d as [|[k l] d IH]; intros n Hn; cbn [trigger_channels flat_map snd].
  - cbn. symmetry. apply Z.leb_gt. lia.
  - rewrite trigger_peaks_spec by assumption. rewrite filter_app, app_length. destruct (Z.leb_spec (tc_min_channels c) (n + Z.of_nat (length (filter (trig c) l)))) as [K|K].
    + symmetry. apply Z.leb_le. lia.
    + rewrite IH by assumption. f_equal. lia.
Qed.
Lemma trigger_channels_never c d n : (tc_min_channels c <= n)%Z -> trigger_channels (conf_params c) d n = false.
Proof. revert n. induction d as [|[k l] d IH]; intros n Hn; [reflexivity|]. cbn [trigger_channels]. destruct (trigger_peaks_never c l n Hn) as (m & -> & Hm). apply IH. lia. Qed.

Lemma how_many_filter {A} (P : A -> Prop) f (Hf : forall a, f a = true <-> P a) l n : how_many P l n <-> n = length (filter f l).
Proof.
  rewrite (how_many_map P f Hf). unfold count_nonzero. enough (E : length (filter (fun b => b) (map f l)) = length (filter f l)) by (now rewrite E).
  induction l as [|a l IH]; [reflexivity|]. cbn. destruct (f a); cbn; auto.
Qed.

(** the filter counts peaks: it passes exactly the events with at least that many peaks within the limits, over all the channels, and none for a minimum of zero *)
Theorem C37_counts_peaks c f d n : select_trigger_filter (Some (true, c)) = Ok f ->
  how_many (triggers c) (flat_map snd d) n ->
  (f d = true <-> (1 <= tc_min_channels c <= Z.of_nat n)%Z).
Proof.
  intros H Hn. apply select_trigger_ok in H. subst f. apply (how_many_filter _ _ (trig_spec c)) in Hn. subst n. unfold trigger_filter.
  destruct (Z.leb_spec 1 (tc_min_channels c)).
  - rewrite trigger_channels_spec by lia. rewrite Z.leb_le. lia.
  - rewrite trigger_channels_never by lia. split; [discriminate|lia].
Qed.
Print Assumptions C37_counts_peaks.

(** with at most one peak within the limits in each channel, it counts channels *)
Theorem C37_counts_channels c f d n : select_trigger_filter (Some (true, c)) = Ok f ->
  (forall k l m, In (k, l) d -> how_many (triggers c) l m -> m <= 1) ->
  how_many (fun ch => exists p, In p (snd ch) /\ triggers c p) d n ->
  (f d = true <-> (1 <= tc_min_channels c <= Z.of_nat n)%Z).
Proof.
  intros H H1 Hn. apply (C37_counts_peaks c f d n H).
  induction Hn as [|[k l] d n (p & Hp & Ht) Hn IH|[k l] d n Hno Hn IH]; [constructor|..]; cbn [flat_map snd] in *;
    apply (how_many_filter _ _ (trig_spec c)); rewrite filter_app, app_length.
  - assert (E : length (filter (trig c) (flat_map snd d)) = n) by (symmetry; apply (how_many_filter _ _ (trig_spec c)), IH; intros; eapply H1; [right; eassumption|assumption]).
    assert (A : length (filter (trig c) l) <= 1) by (apply (H1 k l); [now left|now apply (how_many_filter _ _ (trig_spec c))]).
    assert (B : In p (filter (trig c) l)) by (apply filter_In; split; [assumption|now apply trig_spec]). destruct (filter (trig c) l) as [|? [|? ?]]; cbn in *; [easy|lia|lia].
  - assert (E : length (filter (trig c) (flat_map snd d)) = n) by (symmetry; apply (how_many_filter _ _ (trig_spec c)), IH; intros; eapply H1; [right; eassumption|assumption]).
    assert (B : filter (trig c) l = []); [|rewrite B; cbn; lia]. destruct (filter (trig c) l) as [|p r] eqn:Er; [reflexivity|]. exfalso. apply Hno. exists p.
    assert (K : In p (filter (trig c) l)) by (rewrite Er; now left). apply filter_In in K. destruct K as [K1 K2]. split; [assumption|now apply trig_spec].
Qed.
Print Assumptions C37_counts_channels.

(** without trigger every event passes; a trigger of another type or limits upside down are refused *)
Theorem C37_configurations :
  (exists f, select_trigger_filter None = Ok f /\ forall d, f d = true) /\
  (forall c, select_trigger_filter (Some (false, c)) = Err ValueError) /\
  (forall c, (exists f, select_trigger_filter (Some (true, c)) = Ok f) <->
     ordered (tc_height c) /\ ordered (tc_charge c) /\ ordered (tc_width c) /\ ordered (scaled (tc_charge c) (tc_ratio c)) /\ ordered (scaled (tc_height c) (tc_ratio c))).
Proof.
  split; [eexists; split; [reflexivity|reflexivity]|]. split; [reflexivity|]. intros c. unfold select_trigger_filter, minmax_mul. split.
  - intros (f & H). destruct (mk_minmax (fst (tc_height c)) _) as [h|] eqn:E1; cbn [rbind] in H; [|discriminate]. apply mk_minmax_ok in E1. destruct E1 as [-> ?].
    destruct (mk_minmax (fst (tc_charge c)) _) as [q|] eqn:E2; cbn [rbind] in H; [|discriminate]. apply mk_minmax_ok in E2. destruct E2 as [-> ?].
    destruct (mk_minmax (fst (tc_width c)) _) as [w|] eqn:E3; cbn [rbind] in H; [|discriminate]. apply mk_minmax_ok in E3. destruct E3 as [-> ?].
    cbn [mn mx] in H.
    destruct (mk_minmax (fst (tc_charge c) * _) _) as [q|] eqn:E4; cbn [rbind] in H; [|discriminate]. apply (mk_minmax_ok (_, _)) in E4.
    destruct (mk_minmax (fst (tc_height c) * _) _) as [h|] eqn:E5; cbn [rbind] in H; [|discriminate]. apply (mk_minmax_ok (_, _)) in E5. tauto.
  - intros (H1 & H2 & H3 & H4 & H5). rewrite !mk_minmax_iff by assumption. cbn [rbind mn mx]. apply mk_minmax_iff in H4, H5. cbn [scaled fst snd] in H4, H5. rewrite H4. cbn [rbind]. rewrite H5. cbn [rbind]. eauto.
Qed.
Print Assumptions C37_configurations.

(** one event: a peak of one PMT, height 5, 4 samples of width 1, energy 12 *)
Definition ex_pk (h : Q) (nsi : nat) : peak :=
  {| p_times := [0; 1; 2; 3]%Q; p_widths := [1; 1; 1; 1]%Q; p_pmts := {| r_ids := [0]; r_wfs := {| cols := 4; rows := [[1; h; 4; 2]%Q] |} |};
     p_sipms := {| r_ids := seq 10 nsi; r_wfs := {| cols := 4; rows := repeat [0; 1; 1; 0]%Q nsi |} |} |}.
Definition ex_limits : limits :=
  {| s1_n := (0, 2)%Q; s1_e := (0, 20)%Q; s1_w := (0, 4)%Q; s1_h := (0, 6)%Q; s1_thr := 0;
     s2_n := (1, 1)%Q; s2_e := (1, 12)%Q; s2_w := (4, 4)%Q; s2_h := (5, 5)%Q; s2_nsipm := (1, 2)%Q; s2_thr := 0 |}.
Example C36_example : exists s, mk_selector ex_limits = Ok s /\
  pmap_filter s {| s1s := [ex_pk 5 0; ex_pk 7 0]; s2s := [ex_pk 5 3; ex_pk 5 2; ex_pk 6 2] |} = {| passed := true; s1_peaks := [true; false]; s2_peaks := [false; true; false] |} /\
  passed (pmap_filter s {| s1s := []; s2s := [ex_pk 5 1; ex_pk 5 2] |}) = false.
Proof. eexists. split; [vm_compute; reflexivity|]. split; vm_compute; reflexivity. Qed.

(** one channel with two peaks fires a trigger that asks for two channels *)
Definition ex_trigger (n : Z) : trigger_conf := {| tc_min_channels := n; tc_ratio := 1; tc_height := (1, 10)%Q; tc_charge := (1, 100)%Q; tc_width := (0, 10)%Q |}.
Theorem C37_two_peaks_in_one_channel_refuted :
  exists c f d, select_trigger_filter (Some (true, c)) = Ok f /\ tc_min_channels c = 2%Z /\ how_many (fun ch => exists p, In p (snd ch) /\ triggers c p) d 1 /\ f d = true.
Proof.
  exists (ex_trigger 2). eexists. exists [(0, [ex_pk 5 0; ex_pk 5 0])]. split; [vm_compute; reflexivity|]. split; [reflexivity|]. split; [|vm_compute; reflexivity].
  apply hm_yes; [|constructor]. exists (ex_pk 5 0). split; [now left|]. apply trig_spec. vm_compute. reflexivity.
Qed.
Print Assumptions C37_two_peaks_in_one_channel_refuted.
Example C37_example : exists f, select_trigger_filter (Some (true, ex_trigger 2)) = Ok f /\
  f [(0, [ex_pk 5 0]); (1, [ex_pk 11 0]); (2, [ex_pk 11 0; ex_pk 6 0])] = true /\ f [(0, [ex_pk 5 0]); (1, [ex_pk 11 0])] = false.
Proof. eexists. split; [vm_compute; reflexivity|]. split; vm_compute; reflexivity. Qed.
