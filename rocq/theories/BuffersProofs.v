(** Lemmas on triggers, buffers and event numbers *)
From Verif Require Import Base PeaksModel PeaksSpec PeaksProofs PeaksMore PeaksFind PeaksProps BuffersModel BuffersSpec.
Local Open Scope nat_scope.

(** ** triggers *)
Fixpoint starts (s : Z) (p : nat) (l : list nat) : list nat :=
  match l with
  | [] => []
  | b :: l => if (s <? gap p b)%Z then b :: starts s b l else starts s b l
  end.

Lemma firsts_split s a l :
  rmap (fun pulse => rbind (ends pulse) (fun e => Ok (fst e))) (split_in_peaks (a :: l) s) = Ok (a :: starts s a l).
Proof.
  revert a; induction l as [|b l IH]; intros a; [reflexivity|].
  rewrite split_two. cbn [starts]. specialize (IH b). destruct (split_head b l s) as (g & gs & E). rewrite E in *.
  cbn [rmap rbind ends fst] in IH.
  destruct (rmap _ gs) as [ts|] eqn:Eg; [|discriminate]. injection IH as IH.
  destruct (s <? gap a b)%Z; cbn [rmap rbind ends fst cons_head]; rewrite Eg; now rewrite IH.
Qed.

Lemma starts_in s p l : StronglySorted lt (p :: l) ->
  StronglySorted lt (starts s p l) /\
  forall i, In i (starts s p l) <-> In i l /\ forall j, In j (p :: l) -> j < i -> (s < gap j i)%Z.
Proof.
  revert p; induction l as [|b l IH]; intros p H; [split; [constructor|cbn; tauto]|].
  inversion H as [|? ? Hs Hf]; subst. destruct (IH b Hs) as [I1 I2]. inversion Hs as [|? ? Hs' Hf']; subst.
  inversion Hf as [|? ? Hpb Hpl]; subst.
  rewrite Forall_forall in *.
  assert (Hl : forall x, In x (starts s b l) -> b < x) by (intros x Hx; apply I2 in Hx; apply Hf'; tauto).
  cbn [starts]. destruct (Z.ltb_spec s (gap p b)) as [L|L].
  - split.
    + constructor; [assumption|]. rewrite Forall_forall. assumption.
    + intros i. cbn [In]. rewrite I2. cbn [In]. unfold gap in *. split.
      * intros [<-|[Hi K]].
        -- split; [now left|]. intros j [<-|[<-|Hj]] Hlt; [lia|lia|]. specialize (Hf' j Hj). lia.
        -- split; [now right|]. intros j [<-|Hj] Hlt; [|now apply K].
           specialize (K b (or_introl eq_refl) (Hf' i Hi)). lia.
      * intros [[<-|Hi] K]; [now left|]. right. split; [assumption|]. intros j Hj. apply K. now right.
  - split; [assumption|]. intros i. rewrite I2. cbn [In]. unfold gap in *. split.
    + intros [Hi K]. split; [now right|]. intros j [<-|Hj] Hlt; [|now apply K].
      specialize (K b (or_introl eq_refl) (Hf' i Hi)). lia.
    + intros [[<-|Hi] K].
      * specialize (K p (or_introl eq_refl) Hpb). lia.
      * split; [assumption|]. intros j Hj. apply K. now right.
Qed.

Lemma col_sum_total m i : col_sum m i = total_at m i.
Proof. reflexivity. Qed.

Lemma hot_in m thr i : In i (indices_above_threshold (sum_over_sensors m) thr) <-> hot m thr i.
Proof.
  change (indices_above_threshold (sum_over_sensors m) thr) with (above (sum_over_sensors m) thr). rewrite above_in. unfold sum_over_sensors, hot. rewrite map_length, seq_length.
  split; intros [H1 H2]; (split; [assumption|]).
  - rewrite nth_indep with (d' := col_sum m 0), map_nth, seq_nth in H2 by (rewrite ?map_length, ?seq_length; assumption). exact H2.
  - rewrite nth_indep with (d' := col_sum m 0), map_nth, seq_nth by (rewrite ?map_length, ?seq_length; assumption). exact H2.
Qed.

Lemma find_signal_spec m thr s : exists ts, find_signal_start m thr s = Ok ts /\ StronglySorted lt ts /\
  forall i, In i ts <-> is_trigger m thr s i.
Proof.
  unfold find_signal_start. pose proof (hot_in m thr) as Hh.
  pose proof (proj1 (where_from_sorted (fun x => Qltb thr x) (sum_over_sensors m) 0)) as Hs.
  change (where_from 0 (fun x => Qltb thr x) (sum_over_sensors m)) with (indices_above_threshold (sum_over_sensors m) thr) in Hs.
  destruct (indices_above_threshold (sum_over_sensors m) thr) as [|a l].
  - exists []. split; [reflexivity|]. split; [constructor|]. intros i. split; [easy|]. intros [Hi _]. now apply Hh in Hi.
  - exists (a :: starts s a l). rewrite firsts_split. destruct (starts_in s a l Hs) as [I1 I2].
    inversion Hs as [|? ? _ Hf]; subst. rewrite Forall_forall in Hf. split; [reflexivity|]. split.
    + constructor; [assumption|]. rewrite Forall_forall. intros x Hx. apply I2 in Hx. now apply Hf.
    + intros i. cbn [In]. rewrite I2. unfold is_trigger, gap. split.
      * intros [<-|[Hi K]].
        -- split; [apply Hh; now left|]. intros j Hj Hlt. apply Hh in Hj. destruct Hj as [->|Hj]; [lia|]. specialize (Hf j Hj). lia.
        -- split; [apply Hh; now right|]. intros j Hj. apply K. now apply Hh.
      * intros [Hi K]. apply Hh in Hi. destruct Hi as [Hi|Hi]; [now left|]. right. split; [assumption|].
        intros j Hj. apply K. now apply Hh.
Qed.

(** ** number of triggers *)
Lemma spaced_count (s n : nat) ts : StronglySorted lt ts ->
  (forall i j, In i ts -> In j ts -> j < i -> s < i - j) -> (forall i, In i ts -> i < n) ->
  forall a, (forall i, In i ts -> a <= i) -> (length ts - 1) * (s + 1) + a < n \/ ts = [].
Proof.
  induction ts as [|x ts IH]; intros Hs Hg Hn a Ha; [now right|]. left.
  inversion Hs as [|? ? Hs' Hf]; subst. rewrite Forall_forall in Hf.
  destruct (IH Hs') with (a := x + s + 1) as [H|H].
  - intros i j Hi Hj. apply Hg; now right.
  - intros i Hi. apply Hn. now right.
  - intros i Hi. specialize (Hf i Hi). specialize (Hg i x (or_intror Hi) (or_introl eq_refl) Hf). lia.
  - cbn [length]. specialize (Ha x (or_introl eq_refl)). destruct ts as [|y ts]; cbn [length] in *; [lia|nia].
  - subst. cbn. specialize (Ha x (or_introl eq_refl)). specialize (Hn x (or_introl eq_refl)). lia.
Qed.

(** ** rational rounding *)
Lemma Qfloor_spec q z : Qfloor q = z <-> (inject_Z z <= q /\ q < inject_Z (z + 1))%Q.
Proof.
  split.
  - intros <-. split; [apply Qfloor_le|apply Qlt_floor].
  - intros [H1 H2]. pose proof (Qfloor_le q). pose proof (Qlt_floor q).
    assert (inject_Z z < inject_Z (Qfloor q + 1))%Q as A by lra. assert (inject_Z (Qfloor q) < inject_Z (z + 1))%Q as B by lra.
    rewrite <- Zlt_Qlt in A, B. lia.
Qed.
Lemma Qceil_spec q z : Qceiling q = z <-> (inject_Z (z - 1) < q /\ q <= inject_Z z)%Q.
Proof.
  split.
  - intros <-. split; [apply Qceiling_lt|apply Qle_ceiling].
  - intros [H1 H2]. pose proof (Qle_ceiling q). pose proof (Qceiling_lt q).
    assert (inject_Z (z - 1) < inject_Z (Qceiling q))%Q as A by lra. assert (inject_Z (Qceiling q - 1) < inject_Z z)%Q as B by lra.
    rewrite <- Zlt_Qlt in A, B. lia.
Qed.
Lemma inj_plus a b : (inject_Z (a + b) == inject_Z a + inject_Z b)%Q.
Proof. now rewrite inject_Z_plus. Qed.
Lemma inj_minus a b : (inject_Z (a - b) == inject_Z a - inject_Z b)%Q.
Proof. unfold Z.sub. now rewrite inject_Z_plus, inject_Z_opp. Qed.
Lemma inj_mult a b : (inject_Z (a * b) == inject_Z a * inject_Z b)%Q.
Proof. now rewrite inject_Z_mult. Qed.
Lemma inj_le a b : (a <= b)%Z -> (inject_Z a <= inject_Z b)%Q.
Proof. now rewrite Zle_Qle. Qed.
Lemma inj_lt a b : (a < b)%Z -> (inject_Z a < inject_Z b)%Q.
Proof. now rewrite Zlt_Qlt. Qed.
Lemma inj_le_inv a b : (inject_Z a <= inject_Z b)%Q -> (a <= b)%Z.
Proof. now rewrite Zle_Qle. Qed.
Lemma inj_lt_inv a b : (inject_Z a < inject_Z b)%Q -> (a < b)%Z.
Proof. now rewrite Zlt_Qlt. Qed.
Lemma qn_inj n : qn n = inject_Z (Z.of_nat n). Proof. reflexivity. Qed.

Lemma fdiv_spec a b z : (0 < b)%Q -> fdiv a b = z <-> (inject_Z z * b <= a /\ a < inject_Z (z + 1) * b)%Q.
Proof.
  intros Hb. unfold fdiv. rewrite Qfloor_spec.
  assert (E : (a == a / b * b)%Q) by (field; lra). set (q := (a / b)%Q) in *. clearbody q.
  split; intros [H1 H2]; split; [nra|nra| |]; apply Qnot_lt_le || apply Qnot_le_lt; intros K; nra.
Qed.
Lemma cdivQ_spec a b z : (0 < b)%Q -> Qceiling (a / b) = z <-> (inject_Z (z - 1) * b < a /\ a <= inject_Z z * b)%Q.
Proof.
  intros Hb. rewrite Qceil_spec.
  assert (E : (a == a / b * b)%Q) by (field; lra). set (q := (a / b)%Q) in *. clearbody q.
  split; intros [H1 H2]; split; [nra|nra| |]; apply Qnot_lt_le || apply Qnot_le_lt; intros K; nra.
Qed.


Lemma Qtrunc_nat (a b : Q) k : (0 < b)%Q -> (a == qn k * b)%Q -> Qtrunc (a / b) = Z.of_nat k.
Proof.
  intros Hb E. assert (E' : (a / b == inject_Z (Z.of_nat k))%Q) by (rewrite E, qn_inj; field; lra).
  unfold Qtrunc. rewrite (Qfloor_comp _ _ E'), (Qceiling_comp _ _ E'), Qfloor_Z, Qceiling_Z. now destruct (Qltb _ _).
Qed.

Lemma triggers_bound m thr (L M pw : Q) (k : nat) ts :
  (0 < pw)%Q -> 0 < k -> (L == qn k * pw)%Q -> (L <= M)%Q ->
  (Z.of_nat (cols m) <= Qceiling (M / pw) + 1)%Z ->
  find_signal_start m thr (Qtrunc (L / pw)) = Ok ts ->
  (Z.of_nat (length ts) <= Qceiling (M / L))%Z.
Proof.
  intros Hp Hk EL HM Hc Ef. rewrite (Qtrunc_nat _ _ k Hp EL) in Ef.
  destruct (find_signal_spec m thr (Z.of_nat k)) as (ts' & E & Hs & Hin). rewrite Ef in E. injection E as <-.
  assert (HL : (0 < L)%Q). { rewrite EL. pose proof (qn_pos k Hk). nra. }
  destruct (proj1 (cdivQ_spec M L _ HL) eq_refl) as [_ B]. set (mx := Qceiling (M / L)) in *.
  assert (Hcm : (Qceiling (M / pw) <= mx * Z.of_nat k)%Z).
  { destruct (proj1 (cdivQ_spec M pw _ Hp) eq_refl) as [A _]. set (cm := Qceiling (M / pw)) in *.
    rewrite EL in B. assert (inject_Z (cm - 1) * pw < inject_Z (mx * Z.of_nat k) * pw)%Q as K.
    { rewrite inj_mult. unfold qn in B. lra. }
    assert (inject_Z (cm - 1) < inject_Z (mx * Z.of_nat k))%Q as K' by (apply Qnot_le_lt; intros C; nra).
    apply inj_lt_inv in K'. lia. }
  assert (Hmx : (1 <= mx)%Z).
  { assert (inject_Z 0 < inject_Z mx)%Q as K; [|apply inj_lt_inv in K; lia].
    change (inject_Z 0) with 0%Q. apply Qnot_le_lt. intros C. nra. }
  destruct (spaced_count k (cols m) ts Hs) with (a := 0) as [H|H].
  - intros i j Hi Hj Hlt. apply Hin in Hi. apply Hin in Hj. destruct Hi as [_ Hi]. specialize (Hi j (proj1 Hj) Hlt). lia.
  - intros i Hi. apply Hin in Hi. apply Hi.
  - intros; lia.
  - assert ((Z.of_nat (length ts) - 1) * (Z.of_nat k + 1) < Z.of_nat (cols m))%Z by nia. nia.
  - subst. cbn. lia.
Qed.

(** ** windows *)
Definition pick (row : list Q) (z : Z) : Q := if (z <? 0)%Z then 0%Q else nth (Z.to_nat z) row 0%Q.

Lemma nth_repeat0 k n : nth k (repeat 0%Q n) 0%Q = 0%Q.
Proof. revert k; induction n; destruct k; cbn; auto. Qed.
Lemma nth_pads p0 (r : list Q) p1 k : nth k (repeat 0%Q p0 ++ r ++ repeat 0%Q p1) 0%Q =
  if k <? p0 then 0%Q else nth (k - p0) r 0%Q.
Proof.
  destruct (Nat.ltb_spec k p0).
  - rewrite app_nth1 by now rewrite repeat_length. apply nth_repeat0.
  - rewrite app_nth2 by (rewrite repeat_length; lia). rewrite repeat_length.
    destruct (Nat.lt_ge_cases (k - p0) (length r)).
    + now rewrite app_nth1.
    + rewrite app_nth2 by lia. rewrite nth_repeat0. symmetry. now apply nth_overflow.
Qed.

Lemma cut_and_pad_spec m n pos pre post : is_mat m -> cols m = n -> rows m <> [] ->
  (pos - pre <= Z.of_nat n)%Z -> (0 <= pos + post)%Z -> (0 <= pre + post)%Z ->
  let out := cut_and_pad m n pos pre post in
  Z.of_nat (cols out) = (pre + post)%Z /\ is_mat out /\ length (rows out) = length (rows m) /\
  forall j k, j < length (rows m) -> k < cols out ->
  nth k (nth j (rows out) []) 0%Q = pick (nth j (rows m) []) (pos - pre + Z.of_nat k).
Proof.
  intros Hm Hn Hr H1 H2 H3. cbv zeta. unfold cut_and_pad, pad_safe, py_slice, py_bound.
  destruct (Z.ltb_spec (Z.max 0 (pos - pre)) 0); [lia|]. destruct (Z.ltb_spec (Z.min (Z.of_nat n) (pos + post)) 0); [lia|].
  rewrite Hn. set (a := Nat.min n (Z.to_nat (Z.max 0 (pos - pre)))).
  set (b := Nat.min n (Z.to_nat (Z.min (Z.of_nat n) (pos + post)))).
  set (p0 := Z.to_nat (- Z.min 0 (pos - pre))). set (p1 := Z.to_nat (Z.max 0 (pos + post - Z.of_nat n))).
  assert (Hab : a <= b) by lia. assert (Hbn : b <= n) by lia.
  destruct (rows (mslice a b m)) as [|r0 rs] eqn:Er.
  { cbn in Er. apply map_eq_nil in Er. contradiction. }
  rewrite <- Er. cbn [cols rows]. replace (cols (mslice a b m)) with (b - a) by (cbn; rewrite Hn; lia).
  assert (HL : forall r, In r (rows m) -> length (slice a b r) = b - a).
  { intros r Hi. rewrite length_slice. unfold is_mat in Hm. rewrite Forall_forall in Hm. rewrite (Hm r Hi), Hn. lia. }
  split; [lia|]. split; [|split].
  - unfold is_mat. cbn [rows cols]. rewrite Forall_forall. intros x Hx. apply in_map_iff in Hx. destruct Hx as (r & <- & Hx).
    cbn in Hx. apply in_map_iff in Hx. destruct Hx as (r' & <- & Hx). rewrite !app_length, !repeat_length, HL by assumption. lia.
  - cbn. now rewrite !map_length.
  - intros j k Hj Hk. cbn [rows mslice]. rewrite map_map.
    set (f := fun x => repeat 0%Q p0 ++ slice a b x ++ repeat 0%Q p1).
    rewrite nth_indep with (d' := f []) by now rewrite map_length. rewrite map_nth. unfold f. rewrite nth_pads.
    unfold pick. destruct (Nat.ltb_spec k p0).
    + destruct (Z.ltb_spec (pos - pre + Z.of_nat k) 0); [reflexivity|lia].
    + destruct (Z.ltb_spec (pos - pre + Z.of_nat k) 0); [lia|].
      destruct (Nat.lt_ge_cases (k - p0) (b - a)).
      * rewrite nth_slice by assumption. f_equal. lia.
      * assert (Hi : In (nth j (rows m) []) (rows m)) by now apply nth_In.
        rewrite (nth_overflow (slice _ _ _)) by (rewrite HL by assumption; lia). symmetry. apply nth_overflow.
        unfold is_mat in Hm. rewrite Forall_forall in Hm. rewrite (Hm _ Hi), Hn. lia.
Qed.

(** ** sampling grids *)
Lemma grid_length s w n : length (grid s w n) = n.
Proof. unfold grid. now rewrite map_length, seq_length. Qed.
Lemma grid_nth_error s w n i : nth_error (grid s w n) i = if i <? n then Some (s + qn i * w)%Q else None.
Proof.
  unfold grid. destruct (Nat.ltb_spec i n).
  - rewrite nth_error_map, nth_error_nth' with (d := 0) by now rewrite seq_length. rewrite seq_nth by assumption. reflexivity.
  - apply nth_error_None. now rewrite map_length, seq_length.
Qed.
Lemma grid_nth s w n i : i < n -> nth i (grid s w n) 0%Q = (s + qn i * w)%Q.
Proof. intros H. apply nth_error_nth. rewrite grid_nth_error. destruct (Nat.ltb_spec i n); [reflexivity|lia]. Qed.

Lemma charge_at_pick s w row t z : (0 < w)%Q -> (t == s + inject_Z z * w)%Q -> (charge_at s w row t == pick row z)%Q.
Proof.
  intros Hw Et. unfold charge_at, pick.
  assert (Hiff : forall i, Qeqb (s + qn i * w) t = true <-> Z.of_nat i = z).
  { intros i. rewrite Qeqb_eq. split.
    - intros E. rewrite Et in E. assert (inject_Z (Z.of_nat i) == inject_Z z)%Q as E'.
      { unfold qn in E. apply Qmult_inj_r with w; lra. }
      exact (proj1 (inject_Z_injective _ _) E').
    - intros <-. rewrite Et. unfold qn. reflexivity. }
  destruct (Z.ltb_spec z 0).
  - replace (filter _ _) with (@nil nat); [reflexivity|]. symmetry. induction (seq 0 (length row)) as [|x l IH]; [reflexivity|].
    cbn [filter]. destruct (Qeqb (s + qn x * w) t) eqn:E; [apply Hiff in E; lia|assumption].
  - assert (K : forall n, (sumF (fun i => nth i row 0) (filter (fun i => Qeqb (s + qn i * w) t) (seq 0 n))
              == if (Z.to_nat z <? n)%nat then nth (Z.to_nat z) row 0 else 0)%Q).
    { induction n as [|n IH]; [reflexivity|]. rewrite seq_S, filter_app, sumF_app, IH. cbn [Nat.add filter].
      destruct (Qeqb (s + qn n * w) t) eqn:E.
      - apply Hiff in E. subst z. rewrite Nat2Z.id. destruct (Nat.ltb_spec n n); [lia|]. destruct (Nat.ltb_spec n (S n)); [|lia].
        unfold sumF. cbn. lra.
      - assert (Z.to_nat z <> n). { intros <-. enough (Qeqb (s + qn (Z.to_nat z) * w) t = true) by congruence. apply Hiff. lia. }
        destruct (Nat.ltb_spec (Z.to_nat z) n), (Nat.ltb_spec (Z.to_nat z) (S n)); try lia; unfold sumF; cbn; lra. }
    rewrite K. destruct (Nat.ltb_spec (Z.to_nat z) (length row)); [reflexivity|]. symmetry. rewrite nth_overflow by assumption. reflexivity.
Qed.

(** the last sample at or before t *)
Lemma trigger_bin_spec s w n t z : (0 < w)%Q -> (inject_Z z * w <= t - s)%Q -> (t - s < inject_Z (z + 1) * w)%Q ->
  (0 <= z < Z.of_nat n)%Z -> trigger_bin (grid s w n) t = Ok (Z.to_nat z).
Proof.
  intros Hw H1 H2 Hz. unfold trigger_bin.
  assert (E : np_where (fun x => Qle_bool x t) (grid s w n) = seq 0 (S (Z.to_nat z))).
  { unfold np_where, grid.
    assert (K : forall len lo, where_from lo (fun x => Qle_bool x t) (map (fun i => (s + qn i * w)%Q) (seq lo len)) =
              seq lo (Nat.min len (S (Z.to_nat z) - lo))).
    { induction len as [|len IH]; intros lo; [reflexivity|]. cbn [seq map where_from]. rewrite IH.
      destruct (Qleb_spec (s + qn lo * w) t) as [L|L].
      - assert (lo < S (Z.to_nat z)).
        { assert (inject_Z (Z.of_nat lo) < inject_Z (z + 1))%Q as K.
          { apply Qnot_le_lt. intros C. unfold qn in L. nra. }
          apply inj_lt_inv in K. lia. }
        replace (Nat.min (S len) (S (Z.to_nat z) - lo)) with (S (Nat.min len (S (Z.to_nat z) - S lo))) by lia. reflexivity.
      - assert (~ lo < S (Z.to_nat z)).
        { intros C. assert (inject_Z (Z.of_nat lo) <= inject_Z z)%Q as K by (apply inj_le; lia). unfold qn in L. nra. }
        replace (S (Z.to_nat z) - lo) with 0 by lia. replace (S (Z.to_nat z) - S lo) with 0 by lia.
        rewrite !Nat.min_0_r. reflexivity. }
    rewrite K. f_equal. lia. }
  rewrite E. cbn [seq ends rbind snd]. f_equal.
  destruct (Z.to_nat z) as [|m]; [reflexivity|]. rewrite seq_S, last_app_one. lia.
Qed.
