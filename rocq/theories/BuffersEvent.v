(** From simulated hits to the rows written for one event *)
From Verif Require Import Base PeaksModel PeaksSpec PeaksProofs PeaksMore PeaksFind PeaksProps BuffersModel BuffersSpec BuffersProofs BuffersSlice.
Local Open Scope nat_scope.

Lemma Qltb_comp a b c d : (a == b)%Q -> (c == d)%Q -> Qltb a c = Qltb b d.
Proof. intros E F. destruct (Qltb_spec a c), (Qltb_spec b d); try reflexivity; exfalso; lra. Qed.
Lemma Qle_bool_comp a b c d : (a == b)%Q -> (c == d)%Q -> Qle_bool a c = Qle_bool b d.
Proof. intros E F. destruct (Qleb_spec a c), (Qleb_spec b d); try reflexivity; exfalso; lra. Qed.
Lemma Qeqb_comp a b c d : (a == b)%Q -> (c == d)%Q -> Qeqb a c = Qeqb b d.
Proof. intros E F. destruct (Qeqb_spec a c), (Qeqb_spec b d); try reflexivity; exfalso; lra. Qed.
Lemma to_int_comp a b : (a == b)%Q -> (to_int a == to_int b)%Q.
Proof.
  intros E. unfold to_int, Qtrunc. rewrite (Qltb_comp a b 0 0 E) by reflexivity.
  rewrite (Qceiling_comp _ _ E), (Qfloor_comp _ _ E). reflexivity.
Qed.
Lemma filter_filter {A} (f g : A -> bool) l : filter f (filter g l) = filter (fun x => g x && f x) l.
Proof. induction l as [|a l IH]; cbn; [reflexivity|]. destruct (g a); cbn; [|assumption]. destruct (f a); now rewrite IH. Qed.
Lemma filter_none {A} (f : A -> bool) l : (forall x, In x l -> f x = false) -> filter f l = [].
Proof.
  induction l as [|a l IH]; cbn; intros H; [reflexivity|]. rewrite (H a) by now left. apply IH. intros; apply H; now right.
Qed.

(** one sample of the histogram of one sensor is the simulated charge of that sample *)
Lemma histogram_sample data i s w n t z : (0 < w)%Q -> 0 < n -> (forall r, In r data -> (s <= stime r)%Q) ->
  (t == s + inject_Z z * w)%Q ->
  (pick (weighted_histogram (filter (fun r => (sid r =? i)%nat) data) (grid s w (S n))) z ==
   sample_charge data i (s + qn n * w) w t)%Q.
Proof.
  intros Hw Hn Hd Et. unfold pick, sample_charge. destruct (Z.ltb_spec z 0) as [Hz|Hz].
  - assert (B : (inject_Z (z + 1) <= 0)%Q) by (change 0%Q with (inject_Z 0); apply inj_le; lia).
    rewrite inj_plus in B. change (inject_Z 1) with 1%Q in B. pose proof (qn_pos n Hn).
    destruct (Qle_bool _ _); [|reflexivity]. rewrite filter_none; [reflexivity|]. intros r Hr. specialize (Hd r Hr).
    assert (t + w <= s)%Q by (rewrite Et; nra).
    destruct (Qltb_spec (stime r) (t + w)); [exfalso; lra|].
    destruct (Qeqb_spec (t + w) (s + qn n * w)); [exfalso; nra|]. cbn. apply andb_false_r.
  - destruct (Nat.lt_ge_cases (Z.to_nat z) n) as [Hl|Hl].
    + rewrite histogram_nth by assumption.
      assert (Ez : (inject_Z z == qn (Z.to_nat z))%Q) by (unfold qn; rewrite Z2Nat.id by lia; reflexivity).
      assert (Ez1 : (qn (S (Z.to_nat z)) == qn (Z.to_nat z) + 1)%Q).
      { unfold qn. rewrite Nat2Z.inj_succ. unfold Z.succ. rewrite inj_plus. reflexivity. }
      assert (Le : (qn (S (Z.to_nat z)) <= qn n)%Q) by (apply qn_le; lia).
      destruct (Qleb_spec (t + w) (s + qn n * w)) as [_|C]; [|exfalso; rewrite Et, Ez in C; nra].
      rewrite filter_filter. unfold sumF. rewrite filter_ext with (g := fun r => (sid r =? i) && Qle_bool t (stime r) &&
                                   (Qltb (stime r) (t + w) || (Qeqb (t + w) (s + qn n * w) && Qeqb (stime r) (s + qn n * w)))); [reflexivity|].
      intros r. rewrite <- andb_assoc. f_equal. unfold in_bin.
      rewrite (Qle_bool_comp t (s + qn (Z.to_nat z) * w) (stime r) (stime r)) by (reflexivity || (rewrite Et, Ez; reflexivity)). f_equal.
      rewrite (Qltb_comp (stime r) (stime r) (t + w) (s + qn (S (Z.to_nat z)) * w)) by (reflexivity || (rewrite Et, Ez, Ez1; ring)). f_equal.
      destruct (Nat.eqb_spec (S (Z.to_nat z)) n) as [E|E].
      * rewrite <- E. destruct (Qeqb_spec (t + w) (s + qn (S (Z.to_nat z)) * w)) as [_|C]; [reflexivity|].
        exfalso. apply C. rewrite Et, Ez, Ez1. ring.
      * assert (Lt : (qn (S (Z.to_nat z)) < qn n)%Q) by (apply qn_lt; lia).
        destruct (Qeqb_spec (t + w) (s + qn n * w)) as [C|_]; [|reflexivity].
        exfalso. rewrite Et, Ez in C. nra.
    + rewrite nth_overflow by (rewrite histogram_length, grid_length; lia).
      assert (Le : (inject_Z (Z.of_nat n) <= inject_Z z)%Q) by (apply inj_le; lia). fold (qn n) in Le.
      destruct (Qleb_spec (t + w) (s + qn n * w)) as [C|_]; [|reflexivity]. exfalso. rewrite Et in C. nra.
Qed.

Definition binned_mat (data : list simrow) (edges : list Q) : mat :=
  {| cols := length edges - 1;
     rows := map (fun i => weighted_histogram (filter (fun r => (sid r =? i)%nat) data) edges) (group_ids data) |}.
Lemma binned_is_mat data edges : is_mat (binned_mat data edges).
Proof.
  unfold is_mat. cbn. rewrite Forall_forall. intros r Hr. apply in_map_iff in Hr. destruct Hr as (i & <- & _). apply histogram_length.
Qed.
Lemma binned_nonempty data edges : data <> [] -> rows (binned_mat data edges) <> [].
Proof.
  intros Hd C. cbn in C. apply map_eq_nil in C. destruct data as [|r data]; [easy|].
  destruct (group_ids_spec (r :: data)) as [_ H]. rewrite C in H. apply (H (sid r)). exists r. split; [now left|reflexivity].
Qed.

Lemma map_nth_in {A B} (f : A -> B) l k d d' : k < length l -> nth k (map f l) d' = f (nth k l d).
Proof. intros H. rewrite nth_indep with (d' := f d) by now rewrite map_length. apply map_nth. Qed.

(** the reordered buffer *)
Lemma ordering_spec data db s w n t0 N out len : (0 < w)%Q -> 0 < n -> (forall r, In r data -> (s <= stime r)%Q) ->
  (exists z, t0 == s + inject_Z z * w)%Q ->
  StronglySorted lt db -> (forall r, In r data -> In (sid r) db) ->
  window_of s w (binned_mat data (grid s w (S n))) out t0 N -> N = Z.of_nat len ->
  exists res, ordering (positions db (group_ids data)) out (length db) len = Ok res /\
  buffers_of data db (s + qn n * w) w t0 N res.
Proof.
  intros Hw Hn Hd (z & Ez) Hs Hdb (W1 & W2 & W3 & W4) EN.
  destruct (group_ids_spec data) as [Gs Gi].
  destruct (positions_spec db (group_ids data) Hs Gs) as (P1 & P2 & P3).
  { intros i Hi. apply Gi in Hi. destruct Hi as (r & Hr & <-). now apply Hdb. }
  assert (Lo : length (positions db (group_ids data)) = length (rows out)).
  { rewrite W3. cbn. rewrite map_length. rewrite <- P1 at 2. now rewrite map_length. }
  unfold ordering. rewrite Lo, Nat.eqb_refl. assert (cols out = len) as -> by lia. rewrite Nat.eqb_refl. cbn [negb orb].
  eexists. split; [reflexivity|].
  set (ord := positions db (group_ids data)) in *. set (vals := map (map to_int) (rows out)).
  set (base := repeat (repeat 0%Q len) (length db)).
  destruct (set_rows_spec ord vals base P2) as (L & N1 & N2).
  { unfold vals. now rewrite map_length. }
  { intros j Hj. unfold base. rewrite repeat_length. auto. }
  unfold base at 2 in L. rewrite repeat_length in L.
  assert (Hbase : forall j, j < length db -> nth j base [] = repeat 0%Q len).
  { intros j Hj. apply repeat_spec with (n := length db). apply nth_In. unfold base. now rewrite repeat_length. }
  assert (Hrow : forall j, j < length db -> (exists i, nth_error ord i = Some j /\ i < length (rows out)) \/ ~ In j ord).
  { intros j Hj. destruct (in_dec Nat.eq_dec j ord) as [I|I]; [left|now right].
    apply In_nth_error in I. destruct I as [i I]. exists i. split; [assumption|]. rewrite <- Lo. apply nth_error_Some. congruence. }
  split; [cbn; congruence|]. split; [|split; [exact L|]].
  - unfold is_mat. cbn [rows cols]. rewrite Forall_forall. intros x Hx. apply In_nth with (d := []) in Hx.
    destruct Hx as (j & Hj & <-). rewrite L in Hj. destruct (Hrow j Hj) as [(i & Hi & Hi')|I].
    + rewrite (N1 i j Hi). unfold vals. rewrite map_nth_in with (d := []) by assumption. rewrite map_length.
      unfold is_mat in W2. rewrite Forall_forall in W2. rewrite W2 by now apply nth_In. lia.
    + rewrite (N2 j I), Hbase by assumption. apply repeat_length.
  - intros j i k Hj Hk. cbn [rows cols] in *.
    assert (Hjl : j < length db) by (apply nth_error_Some; congruence).
    assert (Hji : nth j db 0 = i) by now apply nth_error_nth.
    destruct (Hrow j Hjl) as [(q & Hq & Hq')|I].
    + rewrite (N1 q j Hq). unfold vals. rewrite map_nth_in with (d := []) by assumption.
      assert (Hkl : k < length (nth q (rows out) [])).
      { unfold is_mat in W2. rewrite Forall_forall in W2. rewrite W2 by now apply nth_In. lia. }
      rewrite map_nth_in with (d := 0%Q) by assumption. apply to_int_comp.
      assert (Hg : nth_error (group_ids data) q = Some i).
      { rewrite <- P1. rewrite nth_error_map, Hq. cbn. now rewrite Hji. }
      rewrite W4 by lia.
      rewrite (charge_at_pick s w _ _ (z + Z.of_nat k) Hw).
      2:{ rewrite inj_plus. fold (qn k). rewrite Ez. ring. }
      cbn [rows binned_mat].
      rewrite map_nth_in with (d := 0) by (apply nth_error_Some; congruence).
      rewrite (nth_error_nth _ _ 0 Hg). apply histogram_sample; try assumption.
      rewrite inj_plus. fold (qn k). rewrite Ez. ring.
    + rewrite (N2 j I), Hbase by assumption. rewrite nth_repeat0.
      assert (E0 : (sample_charge data i (s + qn n * w) w (t0 + qn k * w) == 0)%Q).
      { unfold sample_charge. destruct (Qle_bool _ _); [|reflexivity]. rewrite filter_none; [reflexivity|].
        intros r Hr. destruct (Nat.eqb_spec (sid r) i) as [E|]; [|reflexivity]. exfalso. apply I.
        assert (In i (group_ids data)) as Hi by (apply Gi; eauto).
        rewrite <- P1 in Hi. apply in_map_iff in Hi. destruct Hi as (j' & E' & Hj').
        assert (j' = j); [|now subst].
        assert (ND : NoDup db).
        { clear - Hs. induction Hs as [|a l H IH F]; constructor; [|assumption]. rewrite Forall_forall in F. intros C. specialize (F a C). lia. }
        apply (proj1 (NoDup_nth db 0) ND); auto. congruence. }
      rewrite (to_int_comp _ _ E0). reflexivity.
Qed.

Lemma NoDup_sorted l : StronglySorted lt l -> NoDup l.
Proof.
  induction 1 as [|a l H IH F]; constructor; [|assumption]. rewrite Forall_forall in F. intros C. specialize (F a C). lia.
Qed.
Lemma sum_indicator i ids (x : Q) : NoDup ids -> In i ids -> (sumF (fun j => if (i =? j)%nat then x else 0) ids == x)%Q.
Proof.
  induction 1 as [|j ids Hj Hn IH]; intros Hi; [easy|]. rewrite sumF_cons. destruct Hi as [->|Hi].
  - rewrite Nat.eqb_refl, sumF_zero; [lra|]. intros a Ha. destruct (Nat.eqb_spec i a); [subst; contradiction|reflexivity].
  - rewrite IH by assumption. destruct (Nat.eqb_spec i j); [subst; contradiction|lra].
Qed.

Lemma total_sample data s w n i : (0 < w)%Q -> 0 < n -> (forall r, In r data -> (s <= stime r)%Q) -> i < n ->
  (total_at (binned_mat data (grid s w (S n))) i == sample_total data (s + qn n * w) w (s + qn i * w))%Q.
Proof.
  intros Hw Hn Hd Hi. unfold total_at. cbn [rows binned_mat]. rewrite sumF_map.
  transitivity (sumF (fun id => sample_charge data id (s + qn n * w) w (s + qn i * w)) (group_ids data)).
  - apply sumF_ext. intros id _. rewrite <- (histogram_sample data id s w n _ (Z.of_nat i)); try assumption; [|reflexivity].
    unfold pick. destruct (Z.ltb_spec (Z.of_nat i) 0); [lia|]. now rewrite Nat2Z.id.
  - unfold sample_charge, sample_total. destruct (Qle_bool _ _); [|now apply sumF_zero].
    set (P := fun r => Qle_bool (s + qn i * w) (stime r) && (Qltb (stime r) (s + qn i * w + w) || _)).
    transitivity (sumF (fun id => sumF (fun r => if (sid r =? id)%nat then (if P r then scharge r else 0) else 0)%Q data) (group_ids data)).
    + apply sumF_ext. intros id _. rewrite sumF_filter_if. apply sumF_ext. intros r _. unfold P. rewrite <- andb_assoc.
      now destruct (sid r =? id)%nat; cbn [andb].
    + rewrite sumF_swap, sumF_filter_if. apply sumF_ext. intros r Hr. destruct (group_ids_spec data) as [G1 G2].
      rewrite sum_indicator; [reflexivity|now apply NoDup_sorted|]. apply G2. eauto.
Qed.

Lemma fold_min l a : (fold_left Qmin l a <= a /\ forall x, In x l -> fold_left Qmin l a <= x)%Q.
Proof.
  revert a; induction l as [|b l IH]; cbn; intros a; [split; [lra|easy]|]. destruct (IH (Qmin a b)) as [I1 I2].
  pose proof (Q.le_min_l a b). pose proof (Q.le_min_r a b). split; [lra|]. intros x [<-|Hx]; [lra|auto].
Qed.
Lemma fold_max l a : (a <= fold_left Qmax l a /\ forall x, In x l -> x <= fold_left Qmax l a)%Q.
Proof.
  revert a; induction l as [|b l IH]; cbn; intros a; [split; [lra|easy]|]. destruct (IH (Qmax a b)) as [I1 I2].
  pose proof (Q.le_max_l a b). pose proof (Q.le_max_r a b). split; [lra|]. intros x [<-|Hx]; [lra|auto].
Qed.
Lemma minQ_spec l m : minQ l = Ok m -> (forall x, In x l -> m <= x)%Q.
Proof. destruct l as [|a l]; cbn; [discriminate|]. intros E; inversion E; subst. destruct (fold_min l a). intros x [<-|Hx]; auto. Qed.
Lemma maxQ_spec l m : maxQ l = Ok m -> (forall x, In x l -> x <= m)%Q.
Proof. destruct l as [|a l]; cbn; [discriminate|]. intros E; inversion E; subst. destruct (fold_max l a). intros x [<-|Hx]; auto. Qed.

Lemma first_last_spec ps ss pw sw : ps <> [] -> ss <> [] -> (0 < pw)%Q -> (0 < sw)%Q ->
  exists t0 t1, first_and_last_times ps ss pw sw = Ok (t0, t1) /\ (t0 < t1)%Q /\
  forall h, In h (ps ++ ss) -> (t0 <= stime h /\ stime h <= t1)%Q.
Proof.
  intros Hp Hs Hpw Hsw. unfold first_and_last_times.
  assert (forall l, l <> [] -> exists m, minQ (map stime l) = Ok m) as Em by (intros [|a l] ?; [easy|cbn; eauto]).
  assert (forall l, l <> [] -> exists m, maxQ (map stime l) = Ok m) as Ex by (intros [|a l] ?; [easy|cbn; eauto]).
  destruct (Em ps Hp) as [p0 E1]. destruct (Em ss Hs) as [s0 E2]. destruct (Ex ps Hp) as [p1 E3]. destruct (Ex ss Hs) as [s1 E4].
  rewrite E1, E2, E3, E4. cbn [rbind]. eexists _, _. split; [reflexivity|].
  pose proof (minQ_spec _ _ E1) as I1. pose proof (minQ_spec _ _ E2) as I2. pose proof (maxQ_spec _ _ E3) as I3. pose proof (maxQ_spec _ _ E4) as I4.
  pose proof (Q.le_min_l p0 s0). pose proof (Q.le_min_r p0 s0). pose proof (Q.le_max_l p1 s1). pose proof (Q.le_max_r p1 s1).
  assert (0 < Qmin pw sw)%Q by (destruct (Q.min_spec pw sw) as [[_ E]|[_ E]]; rewrite E; assumption).
  split.
  - destruct ps as [|a ps]; [easy|]. specialize (I1 (stime a) (or_introl eq_refl)). specialize (I3 (stime a) (or_introl eq_refl)). lra.
  - intros h Hh. apply in_app_iff in Hh. destruct Hh as [Hh|Hh]; apply (in_map stime) in Hh.
    + specialize (I1 _ Hh). specialize (I3 _ Hh). lra.
    + specialize (I2 _ Hh). specialize (I4 _ Hh). lra.
Qed.

Lemma bin_sensors_spec data bw tmin tmax M : (0 < bw)%Q -> (tmin < tmax)%Q -> (0 < M)%Q ->
  exists a n, 0 < n /\ (inject_Z a * bw <= tmin)%Q /\ (tmin < inject_Z (a + 1) * bw)%Q /\
  (Z.of_nat n <= Qceiling (M / bw) + 1)%Z /\
  (Qmin tmax (tmin + M) <= inject_Z a * bw + qn n * bw < Qmin tmax (tmin + M) + bw)%Q /\
  bin_sensors data bw tmin tmax M =
  (grid (inject_Z a * bw) bw n, {| b_ids := group_ids data; b_wfs := binned_mat data (grid (inject_Z a * bw) bw (S n)) |}).
Proof.
  intros Hb Ht HM. set (a := Qfloor (tmin / bw)). set (mt := Qmin tmax (tmin + M)). set (b := Qceiling (mt / bw)).
  assert (Hmt : (tmin < mt)%Q) by (unfold mt; destruct (Q.min_spec tmax (tmin + M)) as [[? E]|[? E]]; rewrite E; lra).
  assert (Hmt2 : (mt <= tmin + M)%Q) by apply Q.le_min_r.
  destruct (proj1 (fdiv_spec tmin bw a Hb) eq_refl) as [A1 A2].
  destruct (proj1 (cdivQ_spec mt bw b Hb) eq_refl) as [B1 B2].
  assert (Hab : (a < b)%Z).
  { apply inj_lt_inv. apply Qnot_le_lt. intros C. nra. }
  exists a, (Z.to_nat (b - a)). assert (En : (qn (Z.to_nat (b - a)) == inject_Z b - inject_Z a)%Q) by (unfold qn; rewrite Z2Nat.id, inj_minus by lia; reflexivity).
  split; [lia|]. split; [assumption|]. split; [assumption|]. split; [|split; [split|]].
  - rewrite Z2Nat.id by lia. destruct (proj1 (cdivQ_spec M bw _ Hb) eq_refl) as [_ C2]. set (cm := Qceiling (M / bw)) in *.
    assert (inject_Z (b - 1) < inject_Z (a + 1 + cm))%Q as K.
    { apply Qnot_le_lt. intros C. rewrite inj_plus in C. assert ((inject_Z (a + 1) + inject_Z cm) * bw <= inject_Z (b - 1) * bw)%Q by (apply Qmult_le_compat_r; [assumption|lra]). nra. }
    apply inj_lt_inv in K. lia.
  - rewrite En. nra.
  - rewrite En. rewrite inj_minus in B1. change (inject_Z 1) with 1%Q in B1. nra.
  - unfold bin_sensors. rewrite (time_edges_grid bw tmin tmax M Hb). fold a mt b.
    replace (Z.to_nat (b - a + 1)) with (S (Z.to_nat (b - a))) by lia. rewrite grid_removelast. reflexivity.
Qed.

Lemma write_from_spec i base nexus times events : length times = length events ->
  map evt_number (write_from i base nexus times events) = map (fun j => base + i + Z.of_nat j)%Z (seq 0 (length times)) /\
  Forall2 (fun t row => time_stamp row = t /\ nexus_evt row = nexus) times (write_from i base nexus times events) /\
  Forall2 (fun ev row => (eng row, trk row) = ev) events (write_from i base nexus times events).
Proof.
  revert i events; induction times as [|t times IH]; intros i [|[e k] events] H; cbn in H; try lia; cbn [write_from].
  - cbn. auto.
  - destruct (IH (i + 1)%Z events ltac:(lia)) as (I1 & I2 & I3). split; [|split; constructor; auto].
    cbn [map seq length evt_number]. f_equal; [cbn; lia|]. rewrite I1, <- seq_shift, map_map. apply map_ext. intros; lia.
Qed.

Lemma Forall2_trans {A B C} (R : A -> B -> Prop) (S : B -> C -> Prop) l m n : Forall2 R l m -> Forall2 S m n ->
  Forall2 (fun a c => exists b, R a b /\ S b c) l n.
Proof. intros H. revert n. induction H; intros n K; inversion K; subst; constructor; eauto. Qed.
Lemma Forall2_and {A B} (R S : A -> B -> Prop) l m : Forall2 R l m -> Forall2 S l m -> Forall2 (fun a b => R a b /\ S a b) l m.
Proof. intros H. induction H; intros K; inversion K; subst; constructor; auto. Qed.
Lemma Forall2_mono {A B} (R S : A -> B -> Prop) l m : (forall a b, In a l -> R a b -> S a b) -> Forall2 R l m -> Forall2 S l m.
Proof. intros H F. induction F; constructor; [apply H; [now left|assumption]|]. apply IHF. intros; apply H; [now right|assumption]. Qed.

Lemma save_buffers_spec c order nexus ts pb pm sb sm (R : nat -> out_row -> Prop) trs :
  find_signal_start pm (trigger_threshold c) (stand_off c) = Ok trs ->
  (forall i, In i trs -> exists t b o, nth_error pb i = Some t /\ generate_slice c pb pm sb sm i = Ok b /\ order b = Ok o /\
     forall row, nexus_evt row = nexus -> time_stamp row = (ts + t)%Q -> (eng row, trk row) = o -> R i row) ->
  exists rows, save_buffers c order nexus ts pb pm sb sm = Ok rows /\ Forall2 R trs rows /\
  map evt_number rows = map (fun j => nexus * max_subevt c + Z.of_nat j)%Z (seq 0 (length trs)).
Proof.
  intros Ef H. unfold save_buffers. rewrite Ef. cbn [rbind].
  destruct (rmap_ok (fun i => match nth_error pb i with Some t => Ok (ts + t)%Q | None => Err IndexError end) trs) as (times & Et & Ft).
  { intros i Hi. destruct (H i Hi) as (t & b & o & -> & _). eauto. }
  destruct (rmap_ok (generate_slice c pb pm sb sm) trs) as (bufs & Eb & Fb).
  { intros i Hi. destruct (H i Hi) as (t & b & o & _ & -> & _). eauto. }
  assert (Hob : forall b, In b bufs -> exists o, order b = Ok o).
  { intros b Hb. apply In_nth_error in Hb. destruct Hb as [j Hb].
    assert (exists i, In i trs /\ generate_slice c pb pm sb sm i = Ok b) as (i & Hi & E).
    { clear - Fb Hb. revert j Hb; induction Fb as [|i b0 trs bufs E F IH]; intros [|j] Hb; cbn in Hb; try discriminate.
      - injection Hb as <-. exists i. split; [now left|assumption].
      - destruct (IH j Hb) as (i' & Hi' & E'). exists i'. split; [now right|assumption]. }
    destruct (H i Hi) as (t & b' & o & _ & E' & Eo & _). rewrite E in E'. injection E' as ->. eauto. }
  destruct (rmap_ok order bufs Hob) as (ords & Eo & Fo).
  assert (Lt : length times = length ords).
  { rewrite <- (Forall2_len _ _ _ Ft), <- (Forall2_len _ _ _ Fo), (Forall2_len _ _ _ Fb). reflexivity. }
  destruct (write_from_spec 0 (ic_event_number_base (max_subevt c) nexus) nexus times ords Lt) as (W1 & W2 & W3).
  exists (write_buffers (max_subevt c) nexus times ords).
  assert (Eall : match trs with [] => Ok [] | _ :: _ =>
    rbind (trigger_times trs ts pb) (fun times => rbind (position_signal c trs pb pm sb sm) (fun buffers =>
    rbind (rmap order buffers) (fun ordered => Ok (write_buffers (max_subevt c) nexus times ordered)))) end
    = Ok (write_buffers (max_subevt c) nexus times ords)).
  { destruct trs as [|x trs].
    - inversion Ft; subst. destruct ords; [reflexivity|discriminate].
    - unfold trigger_times, position_signal. rewrite Et. cbn [rbind]. rewrite Eb. cbn [rbind]. rewrite Eo. reflexivity. }
  split; [exact Eall|]. split.
  - pose proof (Forall2_trans _ _ _ _ _ Ft W2) as A. pose proof (Forall2_trans _ _ _ _ _ (Forall2_trans _ _ _ _ _ Fb Fo) W3) as B.
    eapply Forall2_mono; [|exact (Forall2_and _ _ _ _ A B)]. cbn beta.
    intros i row Hi [(t & E1 & E2 & E3) (o & (b & E4 & E5) & E6)].
    destruct (H i Hi) as (t' & b' & o' & F1 & F2 & F3 & F4). rewrite F1 in E1. injection E1 as <-.
    rewrite F2 in E4. injection E4 as <-. rewrite F3 in E5. injection E5 as <-. now apply F4.
  - rewrite <- (Forall2_len _ _ _ Ft) in W1. unfold write_buffers. rewrite W1. unfold ic_event_number_base. apply map_ext. intros; lia.
Qed.

Lemma buffy_event_spec c r k pmt_db sipm_db e :
  good_cfg c r k -> sim_pmts e <> [] -> sim_sipms e <> [] ->
  StronglySorted lt pmt_db -> StronglySorted lt sipm_db ->
  (forall h, In h (sim_pmts e) -> In (sid h) pmt_db) -> (forall h, In h (sim_sipms e) -> In (sid h) sipm_db) ->
  exists rows trs p0 n stopP stopS,
  buffy_event c pmt_db sipm_db e = Ok rows /\
  (stopP == p0 + qn n * pmt_wid c)%Q /\ all_read c e p0 stopP stopS /\
  StronglySorted lt trs /\ (forall i, In i trs <-> fires c e p0 stopP n i) /\
  Forall2 (row_for c pmt_db sipm_db e p0 stopP stopS) trs rows /\
  map evt_number rows = map (fun j => sim_evt e * max_subevt c + Z.of_nat j)%Z (seq 0 (length trs)).
Proof.
  intros G Hp Hs Sp Ss Ip Is.
  destruct (good_samples c r k G) as (Ek & B1 & B2 & B3 & B4 & Hsw). pose proof G as [Hpw Hr Esw Hk El Hpre Hpost Hmax].
  assert (HL : (0 < buffer_len c)%Q) by (rewrite El; pose proof (qn_pos k Hk); nra).
  destruct (first_last_spec _ _ _ _ Hp Hs Hpw Hsw) as (t0 & t1 & E & Ht & Hb).
  assert (HM : (0 < max_time c)%Q) by lra.
  destruct (bin_sensors_spec (sim_pmts e) (pmt_wid c) t0 t1 (max_time c) Hpw Ht HM) as (ap & np & Np & P1 & P2 & P3 & [P4 P4'] & EP).
  destruct (bin_sensors_spec (sim_sipms e) (sipm_wid c) t0 t1 (max_time c) Hsw Ht HM) as (asi & ns & Ns & S1 & S2 & S3 & [S4 S4'] & ES).
  set (p0 := (inject_Z ap * pmt_wid c)%Q) in *. set (s0 := (inject_Z asi * sipm_wid c)%Q) in *.
  set (stopP := (p0 + qn np * pmt_wid c)%Q) in *. set (stopS := (s0 + qn ns * sipm_wid c)%Q) in *.
  set (pm := binned_mat (sim_pmts e) (grid p0 (pmt_wid c) (S np))). set (sm := binned_mat (sim_sipms e) (grid s0 (sipm_wid c) (S ns))).
  destruct (find_signal_spec pm (trigger_threshold c) (stand_off c)) as (trs & Ef & Hsort & Htr).
  assert (Dp : forall h, In h (sim_pmts e) -> (p0 <= stime h)%Q).
  { intros h Hh. destruct (Hb h); [apply in_app_iff; now left|]. lra. }
  assert (Ds : forall h, In h (sim_sipms e) -> (s0 <= stime h)%Q).
  { intros h Hh. destruct (Hb h); [apply in_app_iff; now right|]. lra. }
  assert (Cp : cols pm = np) by (unfold pm, binned_mat; cbn [cols]; rewrite grid_length; lia).
  assert (Cs : cols sm = ns) by (unfold sm, binned_mat; cbn [cols]; rewrite grid_length; lia).
  assert (Hso : stand_off c = Z.of_nat k) by (apply Qtrunc_nat; assumption).
  assert (Hhot : forall i, hot pm (trigger_threshold c) i <-> over c e p0 stopP np i).
  { intros i. unfold hot, over. rewrite Cp. split; intros [Hi Hv]; (split; [assumption|]).
    - pose proof (total_sample (sim_pmts e) p0 (pmt_wid c) np i Hpw Np Dp Hi) as T. fold pm stopP in T. lra.
    - pose proof (total_sample (sim_pmts e) p0 (pmt_wid c) np i Hpw Np Dp Hi) as T. fold pm stopP in T. lra. }
  assert (Hd : exists d : nat, (p0 == s0 + qn d * pmt_wid c)%Q).
  { exists (Z.to_nat (ap - asi * Z.of_nat r)). unfold qn. rewrite Z2Nat.id.
    - rewrite inj_minus, inj_mult. unfold p0, s0. rewrite Esw. unfold qn. ring.
    - assert (inject_Z (asi * Z.of_nat r) < inject_Z (ap + 1))%Q as K; [|apply inj_lt_inv in K; lia].
      rewrite inj_mult. apply Qnot_le_lt. intros C. unfold s0 in S1. rewrite Esw in S1. unfold qn in S1.
      assert (inject_Z (ap + 1) * pmt_wid c <= inject_Z asi * inject_Z (Z.of_nat r) * pmt_wid c)%Q by (apply Qmult_le_compat_r; [assumption|lra]).
      lra. }
  destruct Hd as [d Ed].
  assert (Hord : exists rows, save_buffers c (order_and_pad pmt_db sipm_db (group_ids (sim_pmts e)) (group_ids (sim_sipms e))
                      (Z.to_nat (Qtrunc (buffer_len c / pmt_wid c))) (Z.to_nat (Qtrunc (buffer_len c / sipm_wid c))))
                 (sim_evt e) (sim_time e) (grid p0 (pmt_wid c) np) pm (grid s0 (sipm_wid c) ns) sm = Ok rows /\
       Forall2 (row_for c pmt_db sipm_db e p0 stopP stopS) trs rows /\
       map evt_number rows = map (fun j => sim_evt e * max_subevt c + Z.of_nat j)%Z (seq 0 (length trs))).
  { apply save_buffers_spec; [assumption|]. intros i Hi. apply Htr in Hi. destruct Hi as [[Hi _] _]. rewrite Cp in Hi.
    destruct (generate_slice_spec c r k p0 np pm s0 ns sm d i) as (P & S & tb & q & Eg & Hq & Etb & Htb & WP & WS); try assumption.
    - apply binned_is_mat.
    - now apply binned_nonempty.
    - apply binned_is_mat.
    - now apply binned_nonempty.
    - fold stopS. assert (qn i + 1 <= qn np)%Q as K.
      { unfold qn. change 1%Q with (inject_Z 1). rewrite <- inj_plus. apply inj_le. lia. }
      unfold stopP in P4'. nra.
    - assert (Zs : Qtrunc (buffer_len c / sipm_wid c) = sipm_buffer_samples c).
      { unfold Qtrunc, sipm_buffer_samples, fdiv. destruct (Qltb_spec (buffer_len c / sipm_wid c) 0) as [C|_]; [|reflexivity].
        exfalso. assert (0 < / sipm_wid c)%Q by now apply Qinv_lt_0_compat. unfold Qdiv in C. nra. }
      assert (Zp : Qtrunc (buffer_len c / pmt_wid c) = pmt_buffer_samples c) by (rewrite Ek; now apply Qtrunc_nat).
      destruct (ordering_spec (sim_pmts e) pmt_db p0 (pmt_wid c) np (tb - inject_Z (pmt_pretrg_base c) * pmt_wid c) (pmt_buffer_samples c) P
                  (Z.to_nat (Qtrunc (buffer_len c / pmt_wid c)))) as (P' & EP' & HP'); try assumption.
      { exists (Z.of_nat q * Z.of_nat r - Z.of_nat d - pmt_pretrg_base c)%Z. rewrite !inj_minus, inj_mult, Etb, Ed, Esw. unfold qn. ring. }
      { rewrite Zp. rewrite Ek. lia. }
      destruct (ordering_spec (sim_sipms e) sipm_db s0 (sipm_wid c) ns (tb - inject_Z (sipm_pretrg c) * sipm_wid c) (sipm_buffer_samples c) S
                  (Z.to_nat (Qtrunc (buffer_len c / sipm_wid c)))) as (S' & ES' & HS'); try assumption.
      { exists (Z.of_nat q - sipm_pretrg c)%Z. rewrite inj_minus, Etb. unfold qn. ring. }
      { rewrite Zs. unfold sipm_postrg in B4. lia. }
      eexists _, _, (P', S'). split; [rewrite grid_nth_error; destruct (Nat.ltb_spec i np); [reflexivity|lia]|].
      split; [exact Eg|]. split.
      + unfold order_and_pad. cbn [fst snd]. rewrite EP'. cbn [rbind]. rewrite ES'. reflexivity.
      + intros row R1 R2 R3. injection R3 as R3 R4. unfold row_for. split; [assumption|]. split; [rewrite R2; reflexivity|].
        exists tb. split; [assumption|]. rewrite R3, R4. split; assumption. }
  destruct Hord as (rows & Er & Fr & Nr).
  exists rows, trs, p0, np, stopP, stopS.
  assert (Ebuf : buffy_event c pmt_db sipm_db e = Ok rows).
  { unfold buffy_event. destruct (sim_pmts e) as [|x xs] eqn:X; [easy|]. destruct (sim_sipms e) as [|y ys] eqn:Y; [easy|].
    rewrite E. cbn [rbind]. rewrite EP, ES. cbn [b_ids b_wfs]. exact Er. }
  split; [exact Ebuf|]. split; [reflexivity|]. split; [|split; [assumption|split; [|split; assumption]]].
  - exists t0. split; [intros h Hh; now apply Hb|]. split; [assumption|]. intros h Hh Hle.
    destruct (Hb h Hh) as [_ K]. assert (stime h <= Qmin t1 (t0 + max_time c))%Q by now apply Q.min_glb. split; lra.
  - intros i. rewrite Htr. unfold is_trigger, fires. rewrite Hhot, Hso. split; intros [H1 H2]; (split; [assumption|]).
    + intros j Hj Hlt. apply Hhot in Hj. specialize (H2 j Hj Hlt). rewrite El. apply Qmult_lt_r; [assumption|]. apply qn_lt. lia.
    + intros j Hj Hlt. apply Hhot in Hj. specialize (H2 j Hj Hlt). rewrite El in H2. apply Qmult_lt_r in H2; [|assumption].
      unfold qn in H2. apply inj_lt_inv in H2. lia.
Qed.
