(** The buffers of one trigger and of one event *)
From Verif Require Import Base PeaksModel PeaksSpec PeaksProofs PeaksMore PeaksFind PeaksProps BuffersModel BuffersSpec BuffersProofs.
Local Open Scope nat_scope.

Lemma good_samples c r k : good_cfg c r k ->
  pmt_buffer_samples c = Z.of_nat k /\ (0 <= pmt_pretrg_base c)%Z /\ (Z.of_nat r <= pmt_postrg_base c)%Z /\
  (0 <= sipm_pretrg c)%Z /\ (1 <= sipm_postrg c)%Z /\ (0 < sipm_wid c)%Q.
Proof.
  intros [Hp Hr Hs Hk Hl Hpre Hpost _].
  assert (Hsw : (0 < sipm_wid c)%Q) by (rewrite Hs; pose proof (qn_pos r Hr); nra).
  assert (E1 : pmt_buffer_samples c = Z.of_nat k).
  { unfold pmt_buffer_samples. apply fdiv_spec; [assumption|]. rewrite inj_plus, Hl. unfold qn. change (inject_Z 1) with 1%Q. split; lra. }
  assert (E2 : (0 <= pmt_pretrg_base c)%Z).
  { unfold pmt_pretrg_base. destruct (proj1 (fdiv_spec (pre_trigger c) _ _ Hp) eq_refl) as [_ B].
    assert (inject_Z 0 < inject_Z (fdiv (pre_trigger c) (pmt_wid c) + 1))%Q as K.
    { change (inject_Z 0) with 0%Q. apply Qnot_le_lt. intros C. nra. }
    apply inj_lt_inv in K. lia. }
  assert (E3 : (0 <= sipm_pretrg c)%Z).
  { unfold sipm_pretrg. destruct (proj1 (fdiv_spec (pre_trigger c) _ _ Hsw) eq_refl) as [_ B].
    assert (inject_Z 0 < inject_Z (fdiv (pre_trigger c) (sipm_wid c) + 1))%Q as K.
    { change (inject_Z 0) with 0%Q. apply Qnot_le_lt. intros C. nra. }
    apply inj_lt_inv in K. lia. }
  repeat split; try assumption.
  - unfold pmt_postrg_base. rewrite E1. unfold pmt_pretrg_base.
    destruct (proj1 (fdiv_spec (pre_trigger c) _ _ Hp) eq_refl) as [A _]. set (f := fdiv _ _) in *.
    assert (inject_Z (f + Z.of_nat r) <= inject_Z (Z.of_nat k))%Q as K.
    { rewrite inj_plus. apply Qnot_lt_le. intros C. unfold qn in *. nra. }
    apply inj_le_inv in K. lia.
  - unfold sipm_postrg, sipm_buffer_samples, sipm_pretrg.
    destruct (proj1 (fdiv_spec (pre_trigger c) _ _ Hsw) eq_refl) as [A _]. set (f := fdiv (pre_trigger c) _) in *.
    destruct (proj1 (fdiv_spec (buffer_len c) _ _ Hsw) eq_refl) as [_ B]. set (g := fdiv (buffer_len c) _) in *.
    assert (inject_Z (f + 1) < inject_Z (g + 1))%Q as K.
    { apply Qnot_le_lt. intros C. rewrite !inj_plus in *. change (inject_Z 1) with 1%Q in *. nra. }
    apply inj_lt_inv in K. lia.
Qed.

Lemma generate_slice_spec c r k p0 np pmts s0 ns sipms d trigger :
  good_cfg c r k ->
  is_mat pmts -> cols pmts = np -> rows pmts <> [] ->
  is_mat sipms -> cols sipms = ns -> rows sipms <> [] ->
  (p0 == s0 + qn d * pmt_wid c)%Q -> trigger < np ->
  (p0 + qn trigger * pmt_wid c < s0 + qn ns * sipm_wid c)%Q ->
  exists P S tb i, generate_slice c (grid p0 (pmt_wid c) np) pmts (grid s0 (sipm_wid c) ns) sipms trigger = Ok (P, S) /\
  i < ns /\ (tb == s0 + qn i * sipm_wid c)%Q /\
  (tb <= p0 + qn trigger * pmt_wid c < tb + sipm_wid c)%Q /\
  window_of p0 (pmt_wid c) pmts P (tb - inject_Z (pmt_pretrg_base c) * pmt_wid c) (pmt_buffer_samples c) /\
  window_of s0 (sipm_wid c) sipms S (tb - inject_Z (sipm_pretrg c) * sipm_wid c) (sipm_buffer_samples c).
Proof.
  intros G Mp Cp Rp Ms Cs Rs Ed Ht Hend.
  destruct (good_samples c r k G) as (Ek & B1 & B2 & B3 & B4 & Hsw). destruct G as [Hp Hr Hs Hk Hl Hpre Hpost _].
  unfold generate_slice. rewrite grid_nth_error. destruct (Nat.ltb_spec trigger np); [|lia].
  set (t := (p0 + qn trigger * pmt_wid c)%Q) in *.
  set (e := d + trigger). set (z := e / r). set (q := e mod r).
  assert (Ee : e = r * z + q) by (apply Nat.div_mod; lia). assert (Hq : q < r) by (apply Nat.mod_upper_bound; lia).
  assert (Et : (t - s0 == (qn r * qn z + qn q) * pmt_wid c)%Q).
  { unfold t. rewrite Ed. assert (qn d + qn trigger == qn r * qn z + qn q)%Q as X.
    { unfold qn. rewrite <- inject_Z_mult, <- !inject_Z_plus. replace (Z.of_nat d + Z.of_nat trigger)%Z with (Z.of_nat r * Z.of_nat z + Z.of_nat q)%Z by lia. reflexivity. }
    rewrite <- X. ring. }
  assert (Q1 : (0 <= qn q)%Q) by (unfold qn; change 0%Q with (inject_Z 0); apply inj_le; lia).
  assert (Q2 : (qn q < qn r)%Q) by now apply qn_lt.
  assert (Hz : z < ns).
  { assert (inject_Z (Z.of_nat z) < inject_Z (Z.of_nat ns))%Q as K.
    { apply Qnot_le_lt. intros C. change (qn ns <= qn z)%Q in C. pose proof (qn_pos r Hr).
      assert (qn ns * (qn r * pmt_wid c) <= qn z * (qn r * pmt_wid c))%Q by (apply Qmult_le_compat_r; [assumption|nra]).
      rewrite Hs in Hend. nra. }
    apply inj_lt_inv in K. lia. }
  assert (T1 : (inject_Z (Z.of_nat z) * sipm_wid c <= t - s0)%Q) by (rewrite Et, Hs; fold (qn z); nra).
  assert (T2 : (t - s0 < inject_Z (Z.of_nat z + 1) * sipm_wid c)%Q).
  { rewrite Et, Hs, inj_plus. fold (qn z). change (inject_Z 1) with 1%Q. nra. }
  rewrite (trigger_bin_spec s0 (sipm_wid c) ns t (Z.of_nat z)) by (assumption || lia). rewrite Nat2Z.id. cbn [rbind].
  rewrite grid_nth by assumption. rewrite !grid_length.
  set (tb := (s0 + qn z * sipm_wid c)%Q) in *.
  assert (Etb : (t - tb == qn q * pmt_wid c)%Q).
  { unfold tb. rewrite Hs. transitivity (t - s0 - qn z * (qn r * pmt_wid c))%Q; [ring|]. rewrite Et. ring. }
  assert (Ec : fdiv (t - tb) (pmt_wid c) = Z.of_nat q).
  { apply fdiv_spec; [assumption|]. rewrite inj_plus. fold (qn q). change (inject_Z 1) with 1%Q. split; rewrite Etb; lra. }
  rewrite Ec. set (pre := (pmt_pretrg_base c + Z.of_nat q)%Z). set (post := (pmt_postrg_base c - Z.of_nat q)%Z).
  destruct (cut_and_pad_spec pmts np (Z.of_nat trigger) pre post) as (P1 & P2 & P3 & P4); try (assumption || lia).
  destruct (cut_and_pad_spec sipms ns (Z.of_nat z) (sipm_pretrg c) (sipm_postrg c)) as (S1 & S2 & S3 & S4); try (assumption || lia).
  eexists _, _, tb, z. split; [reflexivity|]. split; [assumption|]. split; [reflexivity|]. split.
  { split; [|rewrite Hs]; nra. }
  split.
  - split; [|split; [|split]]; try assumption.
    + rewrite P1. unfold pmt_postrg_base in *. lia.
    + intros j kk Hj Hkk. rewrite (P4 j kk Hj Hkk).
      rewrite (charge_at_pick p0 (pmt_wid c) _ _ (Z.of_nat trigger - pre + Z.of_nat kk) Hp); [reflexivity|].
      unfold pre. rewrite !inj_plus, !inj_minus, !inj_plus. fold (qn kk) (qn q) (qn trigger).
      assert (tb == p0 + (qn trigger - qn q) * pmt_wid c)%Q as X.
      { transitivity (t - (t - tb))%Q; [ring|]. rewrite Etb. unfold t. ring. }
      rewrite X. ring.
  - split; [|split; [|split]]; try assumption.
    + rewrite S1. unfold sipm_postrg. lia.
    + intros j kk Hj Hkk. rewrite (S4 j kk Hj Hkk).
      rewrite (charge_at_pick s0 (sipm_wid c) _ _ (Z.of_nat z - sipm_pretrg c + Z.of_nat kk) Hsw); [reflexivity|].
      rewrite !inj_plus, !inj_minus. fold (qn kk) (qn z). unfold tb. ring.
Qed.

(** ** binning *)
Lemma time_edges_grid bw tmin tmax M : (0 < bw)%Q ->
  let a := Qfloor (tmin / bw) in let b := Qceiling (Qmin tmax (tmin + M) / bw) in
  time_edges bw tmin tmax M = grid (inject_Z a * bw) bw (Z.to_nat (b - a + 1)).
Proof.
  intros Hb a b. unfold time_edges, arange, grid. fold a b. do 3 f_equal.
  apply cdivQ_spec; [assumption|]. replace (b - a + 1 - 1)%Z with (b - a)%Z by lia.
  rewrite inj_plus, inj_minus. change (inject_Z 1) with 1%Q. split; lra.
Qed.

Lemma grid_removelast s w n : removelast (grid s w (S n)) = grid s w n.
Proof. unfold grid. rewrite seq_S, map_app. cbn [map]. apply removelast_last. Qed.

Lemma histogram_nth data s w n i : i < n ->
  nth i (weighted_histogram data (grid s w (S n))) 0%Q =
  sumF scharge (filter (fun r => in_bin (s + qn i * w) (s + qn (S i) * w) (S i =? n) (stime r)) data).
Proof.
  intros Hi. unfold grid.
  assert (K : forall n lo i, i < n -> nth i (weighted_histogram data (map (fun j => (s + qn j * w)%Q) (seq lo (S n)))) 0%Q =
    sumF scharge (filter (fun r => in_bin (s + qn (lo + i) * w) (s + qn (S (lo + i)) * w) (S i =? n) (stime r)) data)).
  { clear n i Hi. induction n as [|n IH]; intros lo i Hi; [lia|].
    change (seq lo (S (S n))) with (lo :: seq (S lo) (S n)). destruct i as [|i].
    - cbn [seq map weighted_histogram nth]. rewrite Nat.add_0_r. destruct n; reflexivity.
    - specialize (IH (S lo) i ltac:(lia)). replace (S lo + i) with (lo + S i) in IH by lia. cbn [seq map weighted_histogram nth] in *. exact IH. }
  apply (K n 0 i Hi).
Qed.
Lemma histogram_length data edges : length (weighted_histogram data edges) = length edges - 1.
Proof.
  induction edges as [|a [|b l] IH]; [reflexivity|reflexivity|].
  change (weighted_histogram data (a :: b :: l)) with
    (sumF scharge (filter (fun r => in_bin a b (match l with [] => true | _ => false end) (stime r)) data) :: weighted_histogram data (b :: l)).
  cbn [length]. rewrite IH. cbn. lia.
Qed.

Lemma insert_id_in i j l : In j (insert_id i l) <-> j = i \/ In j l.
Proof.
  induction l as [|x l IH]; cbn [insert_id In]; [intuition congruence|].
  destruct (Nat.ltb_spec i x); cbn [In]; [intuition congruence|].
  destruct (Nat.eqb_spec i x) as [->|N]; cbn [In]; [intuition congruence|]. rewrite IH. intuition congruence.
Qed.
Lemma insert_id_sorted i l : StronglySorted lt l -> StronglySorted lt (insert_id i l).
Proof.
  induction l as [|x l IH]; cbn [insert_id]; intros H; [repeat constructor|].
  inversion H as [|? ? Hs Hf]; subst. destruct (Nat.ltb_spec i x).
  - constructor; [assumption|]. rewrite Forall_forall in *. intros y [<-|Hy]; [assumption|]. specialize (Hf y Hy). lia.
  - destruct (Nat.eqb_spec i x); [assumption|]. constructor; [auto|]. rewrite Forall_forall in *.
    intros y Hy. apply insert_id_in in Hy. destruct Hy as [->|Hy]; [lia|auto].
Qed.
Lemma group_ids_spec rs : StronglySorted lt (group_ids rs) /\ forall i, In i (group_ids rs) <-> exists r, In r rs /\ sid r = i.
Proof.
  induction rs as [|r rs [IH1 IH2]]; cbn; [split; [constructor|]; intros i; split; [easy|intros (? & [] & _)]|].
  split; [now apply insert_id_sorted|]. intros i. rewrite insert_id_in, IH2. split.
  - intros [->|(x & Hx & E)]; eauto.
  - intros (x & [<-|Hx] & E); eauto.
Qed.

Lemma sorted_same l m : StronglySorted lt l -> StronglySorted lt m -> (forall x, In x l <-> In x m) -> l = m.
Proof.
  revert m; induction l as [|a l IH]; intros [|b m] Hl Hm E.
  - reflexivity.
  - exfalso. apply (E b). now left.
  - exfalso. apply (E a). now left.
  - inversion Hl as [|? ? Hl' Fl]; subst. inversion Hm as [|? ? Hm' Fm]; subst. rewrite Forall_forall in *.
    assert (a = b).
    { destruct (proj1 (E a) (or_introl eq_refl)) as [|Ha]; [auto|]. destruct (proj2 (E b) (or_introl eq_refl)) as [|Hb]; [auto|].
      specialize (Fl b Hb). specialize (Fm a Ha). lia. }
    subst b. f_equal. apply IH; try assumption. intros x. split; intros Hx.
    + destruct (proj1 (E x) (or_intror Hx)) as [->|]; [|assumption]. specialize (Fl _ Hx). lia.
    + destruct (proj2 (E x) (or_intror Hx)) as [->|]; [|assumption]. specialize (Fm _ Hx). lia.
Qed.

(** positions of the seen sensors: the i-th position holds the i-th seen id *)
Lemma where_from_nth (p : nat -> bool) db lo : map (fun j => nth (j - lo) db 0) (where_from lo p db) = filter p db.
Proof.
  revert lo; induction db as [|x db IH]; intros lo; [reflexivity|]. cbn [where_from filter].
  assert (K : map (fun j => nth (j - lo) (x :: db) 0) (where_from (S lo) p db) = filter p db).
  { rewrite <- (IH (S lo)). apply map_ext_in. intros j Hj. apply where_from_bound in Hj.
    replace (j - lo) with (S (j - S lo)) by lia. reflexivity. }
  destruct (p x); [|exact K]. cbn [map]. rewrite Nat.sub_diag, K. reflexivity.
Qed.
Lemma filter_sorted (p : nat -> bool) l : StronglySorted lt l -> StronglySorted lt (filter p l).
Proof.
  induction 1 as [|a l H IH F]; cbn; [constructor|]. destruct (p a); [|assumption]. constructor; [assumption|].
  rewrite Forall_forall in *. intros x Hx. apply filter_In in Hx. now apply F.
Qed.
Lemma positions_spec db seen : StronglySorted lt db -> StronglySorted lt seen -> incl seen db ->
  map (fun j => nth j db 0) (positions db seen) = seen /\ StronglySorted lt (positions db seen) /\
  (forall j, In j (positions db seen) -> j < length db).
Proof.
  intros Hd Hs Hi. unfold positions, np_where. split; [|split].
  - transitivity (filter (fun i => existsb (Nat.eqb i) seen) db).
    + rewrite <- (where_from_nth _ _ 0). apply map_ext. intros j. now rewrite Nat.sub_0_r.
    + apply sorted_same; [now apply filter_sorted|assumption|]. intros x. rewrite filter_In, existsb_exists. split.
      * intros (_ & y & Hy & E). apply Nat.eqb_eq in E. now subst.
      * intros Hx. split; [now apply Hi|]. exists x. split; [assumption|]. apply Nat.eqb_refl.
  - apply where_from_sorted.
  - intros j Hj. apply where_from_bound in Hj. lia.
Qed.

Lemma nth_update {A} o (v : A) base j d : o < length base ->
  nth j (firstn o base ++ v :: skipn (S o) base) d = if j =? o then v else nth j base d.
Proof.
  revert o j; induction base as [|b base IH]; intros o j Ho; cbn in Ho; [lia|].
  destruct o as [|o]; destruct j as [|j]; try reflexivity.
  change (nth j (firstn o base ++ v :: skipn (S o) base) d = if j =? o then v else nth j base d). apply IH. lia.
Qed.
Lemma length_update {A} o (v : A) base : o < length base -> length (firstn o base ++ v :: skipn (S o) base) = length base.
Proof. intros H. rewrite app_length, firstn_length. change (length (v :: skipn (S o) base)) with (S (length (skipn (S o) base))). rewrite skipn_length. lia. Qed.

Lemma set_rows_spec ord vals base : StronglySorted lt ord -> length ord = length vals -> (forall j, In j ord -> j < length base) ->
  length (set_rows base ord vals) = length base /\
  (forall i j, nth_error ord i = Some j -> nth j (set_rows base ord vals) [] = nth i vals []) /\
  (forall j, ~ In j ord -> nth j (set_rows base ord vals) [] = nth j base []).
Proof.
  intros Hs. revert vals base; induction Hs as [|o ord Hs IH F]; intros [|v vals] base Hl Hb; cbn in Hl; try lia.
  - cbn. split; [reflexivity|]. split; [|reflexivity]. intros [|i] j E; discriminate.
  - cbn [set_rows]. assert (Ho : o < length base) by (apply Hb; now left).
    destruct (IH vals (firstn o base ++ v :: skipn (S o) base)) as (L & N1 & N2); [lia| |].
    { intros j Hj. rewrite length_update by assumption. apply Hb. now right. }
    rewrite length_update in L by assumption. split; [assumption|]. rewrite Forall_forall in F. split.
    + intros [|i] j E.
      * cbn in E. injection E as <-. rewrite N2, nth_update, Nat.eqb_refl by assumption || (intros C; specialize (F _ C); lia). reflexivity.
      * apply N1, E.
    + intros j Hj. rewrite N2, nth_update by (assumption || (intros C; apply Hj; now right)).
      destruct (Nat.eqb_spec j o) as [->|]; [|reflexivity]. exfalso. apply Hj. now left.
Qed.
