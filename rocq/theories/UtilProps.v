(** C119: intervals, averages, ranges, windows and rebinning *)
From Coq Require Import Setoid Morphisms.
From Verif Require Import Base PeaksModel PeaksFind FiltersModel UtilModel UtilSpec.
Local Open Scope Q_scope.

Lemma mk_ok a b : a <= b -> mk_minmax a b = Ok {| mn := a; mx := b |}.
Proof. intros H. unfold mk_minmax. rewrite (proj2 (Qleb_le a b) H). reflexivity. Qed.
Lemma contains_iff m x : mm_contains m x = true <-> mn m <= x <= mx m.
Proof. unfold mm_contains. rewrite andb_true_iff, !Qleb_le. reflexivity. Qed.
Lemma same_contains m n x y : (mn m <= x <= mx m <-> mn n <= y <= mx n) -> mm_contains m x = mm_contains n y.
Proof. intros H. apply eq_true_iff_eq. rewrite !contains_iff. exact H. Qed.

(** an interval is refused when its ends are in the wrong order; otherwise it contains its centre *)
Theorem C119_interval : forall a b, (b < a -> mk_minmax a b = Err AssertionError) /\
  (a <= b -> exists m, mk_minmax a b = Ok m /\ (forall x, mm_contains m x = true <-> a <= x <= b) /\ mm_contains m (mm_center m) = true /\ mm_bracket m == b - a).
Proof.
  intros a b. split; intros H.
  - unfold mk_minmax. rewrite (proj2 (Qleb_gt a b) H). reflexivity.
  - exists {| mn := a; mx := b |}. split; [apply mk_ok; exact H|]. split; [intros x; apply contains_iff|]. split; [|unfold mm_bracket; cbn; lra].
    apply contains_iff. unfold mm_center. cbn. split; [apply Qle_shift_div_l; lra|apply Qle_shift_div_r; lra].
Qed.
Print Assumptions C119_interval.
(** moving an interval *)
Theorem C119_shift : forall m s, mn m <= mx m -> exists p, mm_add m s = Ok p /\ (forall x, mm_contains p (x + s) = mm_contains m x) /\ mm_bracket p == mm_bracket m /\
  exists q, mm_sub p s = Ok q /\ mm_eq q m = true.
Proof.
  intros m s H. exists {| mn := mn m + s; mx := mx m + s |}. split; [apply mk_ok; lra|]. split; [intros x; apply same_contains; cbn; lra|]. split; [unfold mm_bracket; cbn; lra|].
  exists {| mn := mn m + s - s; mx := mx m + s - s |}. split; [apply mk_ok; cbn; lra|]. unfold mm_eq. cbn. apply andb_true_iff. rewrite !Qeqb_eq. lra.
Qed.
Print Assumptions C119_shift.
(** scaling an interval by a positive number, and back *)
Theorem C119_scale : forall m f, mn m <= mx m -> 0 < f -> exists p, minmax_mul m f = Ok p /\ (forall x, mm_contains p (x * f) = mm_contains m x) /\ mm_bracket p == mm_bracket m * f /\
  exists q, mm_div p f = Ok q /\ mm_eq q m = true.
Proof.
  intros m f H F. assert (F2 : ~ f == 0) by lra. exists {| mn := mn m * f; mx := mx m * f |}. split; [apply mk_ok; nra|]. split; [intros x; apply same_contains; cbn; split; nra|]. split; [unfold mm_bracket; cbn; lra|].
  exists {| mn := mn m * f * (1 / f); mx := mx m * f * (1 / f) |}. split.
  - unfold mm_div. rewrite (proj2 (Qeqb_neq f 0) F2). apply mk_ok. cbn. assert (E : forall a, a * f * (1 / f) == a) by (intros; field; exact F2). rewrite !E. exact H.
  - unfold mm_eq. cbn. apply andb_true_iff. rewrite !Qeqb_eq. split; field; exact F2.
Qed.
Print Assumptions C119_scale.
(** scaling by a negative number is refused, unless the interval is a point; dividing by 0 is refused *)
Theorem C119_negative_scale : forall m f, mn m <= mx m -> mm_div m 0 = Err AssertionError /\ (f < 0 -> minmax_mul m f = Err AssertionError <-> mn m < mx m).
Proof.
  intros m f H. split; [reflexivity|]. intros F. unfold minmax_mul, mk_minmax. destruct (Qleb_spec (mn m * f) (mx m * f)); split; intros; try discriminate; try nra; reflexivity.
Qed.
Print Assumptions C119_negative_scale.
(** the product with 0 contains only 0 *)
Theorem C119_zero_scale : forall m f, f == 0 -> mm_div m f = Err AssertionError /\ exists p, minmax_mul m f = Ok p /\ forall x, mm_contains p x = true <-> x == 0.
Proof.
  intros m f F. split; [unfold mm_div; rewrite (proj2 (Qeqb_eq f 0) F); reflexivity|]. exists {| mn := mn m * f; mx := mx m * f |}. split; [apply mk_ok; rewrite F; lra|].
  intros x. rewrite contains_iff. cbn. rewrite F. lra.
Qed.
Print Assumptions C119_zero_scale.
(** two intervals are equal if and only if they contain the same *)
Theorem C119_equal : forall m n, mn m <= mx m -> mn n <= mx n -> (mm_eq m n = true <-> forall x, mm_contains m x = mm_contains n x).
Proof.
  intros r s R S. unfold mm_eq. rewrite andb_true_iff, !Qeqb_eq. split.
  - intros [A B] x. apply same_contains. lra.
  - intros H. assert (A1 : mn s <= mn r <= mx s) by (rewrite <- contains_iff, <- H, contains_iff; lra). assert (A2 : mn s <= mx r <= mx s) by (rewrite <- contains_iff, <- H, contains_iff; lra).
    assert (B1 : mn r <= mn s <= mx r) by (rewrite <- contains_iff, H, contains_iff; lra). assert (B2 : mn r <= mx s <= mx r) by (rewrite <- contains_iff, H, contains_iff; lra). split; lra.
Qed.
Print Assumptions C119_equal.
(** unpacking an interval gives its ends and nothing else; there are no items with a negative index *)
Theorem C119_items : forall m, (forall n, (n <> 0)%Z -> (n <> 1)%Z -> mm_getitem m n = Err IndexError) /\ (forall fuel, (3 <= fuel)%nat -> mm_items m fuel 0 = [mn m; mx m]).
Proof.
  intros m. split; [|intros [|[|[|k]]] F; try lia; reflexivity]. intros n N0 N1. unfold mm_getitem. apply Z.eqb_neq in N0, N1. now rewrite N0, N1.
Qed.
Print Assumptions C119_items.
Example C119_items_ex : match mk_minmax 2 6 with Ok m => mm_items m 5 0 = [2; 6] /\ mm_getitem m (-1) = Err IndexError | Err _ => False end.
Proof. split; reflexivity. Qed.
Example C119_interval_ex : match mk_minmax 2 6 with Ok m => mm_center m == 4 /\ minmax_mul m (-(1)) = Err AssertionError /\ match minmax_mul m (1 # 2) with Ok p => mm_contains p 1 = true /\ mm_contains p 4 = false | Err _ => False end | Err _ => False end.
Proof. cbn. vm_compute. repeat split. Qed.

(** ---- relative differences ---- *)
Theorem C119_relative : forall x y, ~ x == 0 -> ~ y == 0 -> ~ x + y == 0 -> exists a b c d, relative_difference First x y = Ok a /\ relative_difference Second x y = Ok b /\ relative_difference Sumof x y = Ok c /\ relative_difference Mean x y = Ok d /\
  a * x == x - y /\ b * y == x - y /\ c * (x + y) == x - y /\ d == 2 * c /\
  exists a' c', relative_difference First y x = Ok a' /\ relative_difference Sumof y x = Ok c' /\ b == - a' /\ c == - c'.
Proof.
  intros x y X Y XY. assert (YX : ~ y + x == 0) by lra. exists ((x - y) / x), ((x - y) / y), ((x - y) / (x + y)), (2 * (x - y) / (x + y)). unfold relative_difference, divide.
  rewrite (proj2 (Qeqb_neq x 0) X), (proj2 (Qeqb_neq y 0) Y), (proj2 (Qeqb_neq (x + y) 0) XY), (proj2 (Qeqb_neq (y + x) 0) YX).
  split; [reflexivity|]. split; [reflexivity|]. split; [reflexivity|]. split; [reflexivity|]. split; [field; assumption|]. split; [field; assumption|]. split; [field; assumption|]. split; [field; assumption|].
  exists ((y - x) / y), ((y - x) / (y + x)). split; [reflexivity|]. split; [reflexivity|]. split; field; auto.
Qed.
Print Assumptions C119_relative.
Example C119_relative_ex : relative_difference Mean 3 1 = Ok (2 * (3 - 1) / (3 + 1)) /\ relative_difference First 0 1 = Err NotModelled.
Proof. split; reflexivity. Qed.

(** ---- ranges: cutting a range in two at [b] puts each value in one part only ---- *)
Theorem C119_ranges : forall lo b hi l r x, match lo with None => True | Some a => a < b \/ (l = true /\ a <= b) end -> match hi with None => True | Some c => b <= c end ->
  let left := in_range4 lo (Some b) l false x in let right := in_range4 (Some b) hi true r x in
  left || right = in_range4 lo hi l r x /\ left && right = false.
Proof.
  intros lo b hi l r x HL HH. cbn zeta. unfold in_range4.
  assert (A : match lo with Some a => if l then Qle_bool a x else Qltb a x | None => true end = true \/ x < b /\ match lo with Some a => if l then Qle_bool a x else Qltb a x | None => true end = false).
  { destruct lo as [a|]; [|left; reflexivity]. destruct l; [destruct (Qleb_spec a x)|destruct (Qltb_spec a x)]; auto; right; split; try reflexivity; destruct HL as [HL|[HL1 HL2]]; try discriminate; lra. }
  assert (B : match hi with Some c => if r then Qle_bool x c else Qltb x c | None => true end = true \/ b <= x /\ match hi with Some c => if r then Qle_bool x c else Qltb x c | None => true end = false).
  { destruct hi as [c|]; [|left; reflexivity]. destruct r; [destruct (Qleb_spec x c)|destruct (Qltb_spec x c)]; auto; right; split; try reflexivity; lra. }
  destruct (Qltb_spec x b) as [L|L].
  - rewrite (proj2 (Qleb_gt b x) L). destruct A as [->|[_ ->]], B as [->|[B _]]; try lra; cbn; auto.
  - rewrite (proj2 (Qleb_le b x) L). destruct A as [->|[A _]], B as [->|[_ ->]]; try lra; cbn; auto.
Qed.
Print Assumptions C119_ranges.
Example C119_ranges_ex : in_range4 (Some 1) (Some 2) true false 2 = false /\ in_range4 (Some 2) None true false 2 = true /\ in_range4 None (Some 2) false true 2 = true /\ in_range4 (Some 2) None false false 2 = false.
Proof. repeat split. Qed.

(** ---- averages ---- *)
Lemma map2_sum (data weights : list Q) : sumQ (map2 Qmult data weights) == sumF (fun p => snd p * fst p) (combine data weights).
Proof. revert weights. induction data as [|x l IH]; intros [|w ws]; try reflexivity. cbn [map2 combine sumQ]. rewrite sumF_cons. cbn [fst snd]. rewrite IH. lra. Qed.
Lemma total_weights (data weights : list Q) : length data = length weights -> sumQ weights = total (combine data weights).
Proof. revert weights. induction data as [|x l IH]; intros [|w ws] H; try discriminate; [reflexivity|]. cbn [combine sumQ]. unfold total. rewrite sumF_cons. cbn [snd]. rewrite IH by (injection H; auto). reflexivity. Qed.
Lemma map_combine (f : Q -> Q) data weights : combine (map f data) (weights : list Q) = map (fun p => (f (fst p), snd p)) (combine data weights).
Proof. revert weights. induction data as [|x l IH]; intros [|w ws]; try reflexivity. cbn. rewrite IH. reflexivity. Qed.
Lemma spread m c l : squares c l == squares m l + 2 * (m - c) * sumF (fun p => snd p * (fst p - m)) l + (m - c) * (m - c) * total l.
Proof.
  unfold squares, total. induction l as [|p l IH]; [unfold sumF; cbn; lra|]. rewrite !sumF_cons, IH. ring.
Qed.
Lemma centred m l : sumF (fun p : Q * Q => snd p * (fst p - m)) l == sumF (fun p => snd p * fst p) l - m * total l.
Proof. unfold total. induction l as [|p l IH]; [unfold sumF; cbn; lra|]. rewrite !sumF_cons, IH. ring. Qed.

Lemma average_ok data weights : length data = length weights -> ~ sumQ weights == 0 -> np_average data weights = Ok (sumQ (map2 Qmult data weights) / sumQ weights, sumQ weights).
Proof. intros H W. unfold np_average. rewrite (proj2 (Nat.eqb_eq _ _) H). cbn [negb]. rewrite (proj2 (Qeqb_neq _ 0) W). reflexivity. Qed.
Lemma var_steps ub fr data weights : length data = length weights -> ~ sumQ weights == 0 ->
  exists m v, m * sumQ weights == sumF (fun p => snd p * fst p) (combine data weights) /\ v * sumQ weights == squares m (combine data weights) /\
  weighted_mean_and_var ub fr data weights = if negb ub then Ok (m, v) else if fr then rbind (divide (sumQ weights) (sumQ weights - 1)) (fun f => Ok (m, v * f)) else
    rbind (divide (sumQ (map (fun w => w * w) weights)) (sumQ weights * sumQ weights)) (fun r => rbind (divide 1 (1 - r)) (fun f => Ok (m, v * f))).
Proof.
  intros H W. exists (sumQ (map2 Qmult data weights) / sumQ weights), (sumQ (map2 Qmult (map (fun x => (x - sumQ (map2 Qmult data weights) / sumQ weights) * (x - sumQ (map2 Qmult data weights) / sumQ weights)) data) weights) / sumQ weights).
  split; [rewrite <- map2_sum; field; exact W|]. split.
  - rewrite Qmult_comm, Qmult_div_r by exact W. rewrite map2_sum, map_combine, sumF_map. unfold squares. cbn [fst snd]. reflexivity.
  - unfold weighted_mean_and_var. rewrite (average_ok data weights H W). cbn [rbind]. rewrite average_ok; [|rewrite map_length; exact H|exact W]. cbn [rbind]. reflexivity.
Qed.

(** the average balances the data, lies among them, and is the point with the least weighted squares, that add up to the variance times the weights *)
Theorem C119_average : forall data weights, length data = length weights -> ~ sumQ weights == 0 -> exists m v, weighted_mean_and_var false true data weights = Ok (m, v) /\
  sumF (fun p => snd p * (fst p - m)) (combine data weights) == 0 /\ v * sumQ weights == squares m (combine data weights) /\
  (forall c, squares c (combine data weights) == v * sumQ weights + (m - c) * (m - c) * sumQ weights) /\
  ((forall w, In w weights -> 0 <= w) -> 0 <= v /\ forall lo hi, (forall x, In x data -> lo <= x <= hi) -> lo <= m <= hi).
Proof.
  intros data weights H W. destruct (var_steps false true data weights H W) as (m & v & M & V & E). cbn [negb] in E. exists m, v. split; [exact E|].
  assert (C : sumF (fun p => snd p * (fst p - m)) (combine data weights) == 0) by (rewrite centred, <- (total_weights data weights H), <- M; lra).
  split; [exact C|]. split; [exact V|]. split.
  - intros c. rewrite (spread m c), C, V, <- (total_weights data weights H). ring.
  - intros P. assert (PW : forall p, In p (combine data weights) -> 0 <= snd p) by (intros [x w] I; apply in_combine_r in I; apply P; exact I).
    assert (W0 : 0 < sumQ weights).
    { assert (0 <= sumQ weights) by (rewrite (total_weights data weights H); apply sumF_nonneg; exact PW). lra. }
    split.
    + assert (S : 0 <= squares m (combine data weights)) by (apply sumF_nonneg; intros p I; apply PW in I; apply Qmult_le_0_compat; [exact I|]; generalize (fst p - m); intros q; nra). rewrite <- V in S. apply (Qmult_le_r 0 v _ W0). lra.
    + intros lo hi B. assert (L : lo * sumQ weights <= m * sumQ weights <= hi * sumQ weights); [|destruct L as [L1 L2]; split; [apply (Qmult_le_r _ _ _ W0); exact L1|apply (Qmult_le_r _ _ _ W0); exact L2]].
      rewrite M. assert (K : forall k, k * sumQ weights == sumF (fun p => snd p * k) (combine data weights)) by (intros k; rewrite sumF_scale_r, (total_weights data weights H); unfold total; ring).
      rewrite (K lo), (K hi). split; apply sumF_le; intros [x w] I; pose proof (PW _ I) as Pw; apply in_combine_l in I; apply B in I; cbn [fst snd] in *; nra.
Qed.
Print Assumptions C119_average.
(** the unbiased estimates: with weights that count repetitions, and with weights that give reliability *)
Theorem C119_unbiased : forall data weights, length data = length weights -> ~ sumQ weights == 0 ->
  (~ sumQ weights == 1 -> exists m v, weighted_mean_and_var true true data weights = Ok (m, v) /\ sumF (fun p => snd p * (fst p - m)) (combine data weights) == 0 /\ v * (sumQ weights - 1) == squares m (combine data weights)) /\
  (~ sumQ weights * sumQ weights == sumF (fun w => w * w) weights -> exists m v, weighted_mean_and_var true false data weights = Ok (m, v) /\ sumF (fun p => snd p * (fst p - m)) (combine data weights) == 0 /\
     v * (sumQ weights * sumQ weights - sumF (fun w => w * w) weights) == squares m (combine data weights) * sumQ weights).
Proof.
  intros data weights H W. split; intros D.
  - destruct (var_steps true true data weights H W) as (m & v & M & V & E). cbn [negb] in E. assert (D2 : ~ sumQ weights - 1 == 0) by lra.
    unfold divide in E. rewrite (proj2 (Qeqb_neq _ 0) D2) in E. cbn [rbind] in E. eexists _, _. split; [exact E|]. split; [rewrite centred, <- (total_weights data weights H), <- M; lra|].
    rewrite <- V. field. exact D2.
  - destruct (var_steps true false data weights H W) as (m & v & M & V & E). cbn [negb] in E. unfold divide in E at 1.
    assert (W2 : ~ sumQ weights * sumQ weights == 0) by (intros Z; apply Qmult_integral in Z; tauto). rewrite (proj2 (Qeqb_neq _ 0) W2) in E. cbn [rbind] in E. unfold divide in E.
    change (sumQ (map (fun w => w * w) weights)) with (sumF (fun w => w * w) weights) in E. set (s2 := sumF (fun w => w * w) weights) in *. set (s := sumQ weights) in *.
    assert (D2 : ~ 1 - s2 / (s * s) == 0).
    { intros Z. apply D. assert (Z2 : s2 / (s * s) == 1) by lra. assert (s2 == s2 / (s * s) * (s * s)) by (field; exact W). rewrite H0, Z2. lra. }
    rewrite (proj2 (Qeqb_neq _ 0) D2) in E. cbn [rbind] in E. eexists _, _. split; [exact E|]. split; [rewrite centred, <- (total_weights data weights H), <- M; fold s; lra|].
    rewrite <- V. assert (K : 1 - s2 / (s * s) == (s * s - s2) / (s * s)) by (field; exact W). rewrite K. field. split; [exact W|]. intros Z. apply D. lra.
Qed.
Print Assumptions C119_unbiased.
Example C119_average_ex : match weighted_mean_and_var true true [1; 2; 6] [1; 1; 1] with Ok (m, v) => m == 3 /\ v == 7 | Err _ => False end /\
  match weighted_mean_and_var true false [1; 2; 6] [1; 1; 1] with Ok (m, v) => m == 3 /\ v == 7 | Err _ => False end /\ weighted_mean_and_var false true [1; 2] [1; -(1)] = Err ZeroDivisionError.
Proof. vm_compute. repeat split. Qed.

(** ---- position of an element ---- *)
Lemma positions_ok elem l : forall i, match positions_from i elem l with
  | [] => forall x, In x l -> ~ x == elem
  | j :: _ => (i <= j < i + length l)%nat /\ nth (j - i) l 0 == elem /\ forall k, (k < j - i)%nat -> ~ nth k l 0 == elem
  end.
Proof.
  induction l as [|x l IH]; intros i; cbn [positions_from]; [intros x []|]. destruct (Qeqb_spec x elem) as [E|E].
  - replace (i - i)%nat with 0%nat by lia. cbn. split; [lia|]. split; [exact E|]. intros k K; lia.
  - specialize (IH (S i)). destruct (positions_from (S i) elem l) as [|j js]; [intros y [<-|I]; auto|]. destruct IH as (I1 & I2 & I3). cbn [length].
    split; [lia|]. replace (j - i)%nat with (S (j - S i)) by lia. cbn [nth]. split; [exact I2|]. intros [|k] K; [exact E|]. apply I3. lia.
Qed.
Theorem C119_position : forall l elem, match loc_elem_1d l elem with
  | Ok i => (i < length l)%nat /\ nth i l 0 == elem /\ forall k, (k < i)%nat -> ~ nth k l 0 == elem
  | Err e => e = IndexError /\ forall x, In x l -> ~ x == elem
  end.
Proof.
  intros l elem. unfold loc_elem_1d. pose proof (positions_ok elem l 0) as H. destruct (positions_from 0 elem l) as [|i js]; [split; [reflexivity|exact H]|].
  rewrite Nat.sub_0_r in H. destruct H as (H1 & H2 & H3). split; [lia|]. split; assumption.
Qed.
Print Assumptions C119_position.
Example C119_position_ex : loc_elem_1d [3; 5; 5] 5 = Ok 1%nat /\ loc_elem_1d [3; 5] 4 = Err IndexError.
Proof. split; reflexivity. Qed.

(** ---- rebinning ---- *)
Lemma slice_app_l {A} (b l : list A) n : length b = n -> slice (0 * n) (0 * n + n) (b ++ l) = b.
Proof. intros H. unfold slice. cbn [Nat.mul skipn]. replace (0 + n - 0)%nat with (length b) by lia. rewrite firstn_app, Nat.sub_diag, firstn_all. cbn. apply app_nil_r. Qed.
Lemma slice_app_r {A} (b l : list A) n i : length b = n -> slice (S i * n) (S i * n + n) (b ++ l) = slice (i * n) (i * n + n) l.
Proof.
  intros H. unfold slice. cbn [Nat.mul]. replace (n + i * n + n - (n + i * n))%nat with (i * n + n - i * n)%nat by lia. f_equal.
  rewrite skipn_app. rewrite (skipn_all2 b) by lia. cbn [app]. f_equal. lia.
Qed.
Lemma cut {A} n (arr : list A) : (0 < n)%nat -> exists bs, blocks n arr bs.
Proof.
  intros N. remember (length arr) as k eqn:K. revert arr K. induction k as [k IH] using lt_wf_ind. intros arr K.
  destruct (le_lt_dec n (length arr)) as [L|L].
  - destruct (IH (length (skipn n arr))) with (arr := skipn n arr) as [bs B]; [rewrite skipn_length; lia|reflexivity|].
    exists (firstn n arr :: bs). rewrite <- (firstn_skipn n arr) at 1. apply b_block; [rewrite firstn_length; lia|exact B].
  - destruct arr as [|x arr]; [exists []; constructor|]. exists [x :: arr]. apply b_last; [discriminate|exact L].
Qed.
Lemma rebin_blocks (f : list Q -> Q) n arr bs : (0 < n)%nat -> blocks n arr bs ->
  map (fun i => f (slice (i * n) (i * n + n) arr)) (seq 0 (length arr / n)) ++ (if negb (length arr mod n =? 0)%nat then [f (skipn (length arr / n * n) arr)] else []) = map f bs.
Proof.
  intros N B. induction B as [|l L1 L2|b l bs Hb B IH].
  - rewrite Nat.div_0_l, Nat.mod_0_l by lia. reflexivity.
  - rewrite Nat.div_small, Nat.mod_small by lia. destruct l; [congruence|]. reflexivity.
  - rewrite app_length, Hb. replace (n + length l)%nat with (length l + 1 * n)%nat by lia. rewrite Nat.div_add, Nat.mod_add by lia. rewrite Nat.add_1_r. cbn [seq map].
    rewrite slice_app_l by exact Hb. cbn [map app]. f_equal. rewrite <- IH. f_equal.
    + rewrite <- seq_shift, map_map. apply map_ext. intros i. rewrite slice_app_r by exact Hb. reflexivity.
    + destruct (negb _); [|reflexivity]. f_equal. f_equal. cbn [Nat.mul]. rewrite skipn_app. rewrite (skipn_all2 b) by lia. cbn [app]. f_equal. lia.
Qed.
Lemma rebin_whole (f : list Q -> Q) n arr : (0 < n)%nat -> exists bs, blocks n (firstn (length arr / n * n) arr) bs /\ map (fun i => f (slice (i * n) (i * n + n) arr)) (seq 0 (length arr / n)) = map f bs.
Proof.
  intros N. destruct (cut n (firstn (length arr / n * n) arr) N) as [bs B]. exists bs. split; [exact B|]. rewrite <- (rebin_blocks f n _ bs N B).
  assert (L : length (firstn (length arr / n * n) arr) = (length arr / n * n)%nat) by (rewrite firstn_length; pose proof (Nat.mul_div_le (length arr) n); lia).
  rewrite L. rewrite Nat.div_mul, Nat.mod_mul by lia. cbn [Nat.eqb negb]. rewrite app_nil_r. apply map_ext_in. intros i I. apply in_seq in I. f_equal.
  unfold slice. replace (i * n + n - i * n)%nat with n by lia.
  rewrite <- (firstn_skipn (length arr / n * n) arr) at 1. rewrite skipn_app, firstn_app, L.
  assert (Q : (i * n + n <= length arr / n * n)%nat) by (replace (i * n + n)%nat with (S i * n)%nat by lia; apply Nat.mul_le_mono_r; lia).
  replace (i * n - length arr / n * n)%nat with 0%nat by lia.
  rewrite skipn_length, L. replace (n - (length arr / n * n - i * n))%nat with 0%nat by lia. cbn [firstn]. apply app_nil_r.
Qed.
(** each element of the result is the sum, or the mean, of a block; a last block that is not complete is kept or dropped. So the sum is kept *)
Theorem C119_rebin : forall arr n mean remainder, rebin_array arr 0 mean remainder = Err ZeroDivisionError /\
  ((0 < n)%nat -> exists r bs, rebin_array arr n mean remainder = Ok r /\ blocks n (if remainder then arr else firstn (length arr / n * n) arr) bs /\
    Forall2 (fun x b => if mean then x * inject_Z (Z.of_nat (length b)) == sumQ b else x == sumQ b) r bs).
Proof.
  intros arr n mean remainder. split; [reflexivity|]. intros N. unfold rebin_array. destruct (Nat.eqb_spec n 0); [lia|]. set (f := if mean then np_mean else sumQ).
  assert (F : forall a bs, blocks n a bs -> Forall2 (fun x b => if mean then x * inject_Z (Z.of_nat (length b)) == sumQ b else x == sumQ b) (map f bs) bs).
  { assert (F1 : forall b, b <> [] -> if mean then f b * inject_Z (Z.of_nat (length b)) == sumQ b else f b == sumQ b).
    { intros b Hb. unfold f. destruct mean; [|reflexivity]. unfold np_mean. field. destruct b; [congruence|]. cbn [length]. intros Z. unfold Qeq, inject_Z in Z. cbn [Qnum Qden] in Z. lia. }
    intros a bs B. induction B as [|l L1 L2|b l bs Hb B IH].
    - constructor.
    - constructor; [apply F1; exact L1|constructor].
    - constructor; [apply F1; destruct b; [cbn in Hb; lia|discriminate]|exact IH]. }
  destruct remainder; cbn [andb].
  - destruct (cut n arr N) as [bs B]. exists (map f bs), bs. rewrite (rebin_blocks f n arr bs N B). split; [reflexivity|]. split; [exact B|]. apply (F arr). exact B.
  - destruct (rebin_whole f n arr N) as (bs & B & E). rewrite app_nil_r, E. exists (map f bs), bs. split; [reflexivity|]. split; [exact B|]. apply (F _ _ B).
Qed.
Print Assumptions C119_rebin.
Lemma blocks_concat {A} n (l : list A) bs : blocks n l bs -> concat bs = l.
Proof. induction 1; cbn; rewrite ?app_nil_r; congruence. Qed.
Theorem C119_rebin_sum : forall arr n, (0 < n)%nat -> match rebin_array arr n false true with Ok r => sumQ r == sumQ arr | Err _ => False end.
Proof.
  intros arr n N. destruct (C119_rebin arr n false true) as [_ H]. destruct (H N) as (r & bs & E & B & F). rewrite E. rewrite <- (blocks_concat n arr bs B). clear - F.
  induction F as [|x b r bs X F IH]; [reflexivity|]. cbn [sumQ concat]. rewrite sumQ_app, IH, X. reflexivity.
Qed.
Print Assumptions C119_rebin_sum.
Example C119_rebin_ex : rebin_array [1; 2; 3; 4; 5] 2 false true = Ok [1 + (2 + 0); 3 + (4 + 0); 5 + 0] /\ match rebin_array [1; 2; 3; 4; 5] 2 true false with Ok [a; b] => a == 3 # 2 /\ b == 7 # 2 | _ => False end.
Proof. split; [reflexivity|]. vm_compute. split; reflexivity. Qed.

(** ---- windows ---- *)
Theorem C119_window : forall wf size, define_window [] size = Err ValueError /\ (wf <> [] -> exists lo hi p, define_window wf size = Ok (lo, hi) /\ (p < length wf)%nat /\
  (forall x, In x wf -> Qabs (x - np_mean wf) <= Qabs (nth p wf 0 - np_mean wf)) /\
  forall i, (lo <= i < hi)%nat <-> (i < length wf /\ i < p + size /\ p <= i + size)%nat).
Proof.
  intros wf size. split; [reflexivity|]. intros H. unfold define_window. destruct wf as [|x0 wf0] eqn:EW; [congruence|]. rewrite <- EW in *. clear x0 wf0 EW.
  assert (H2 : map (fun x => Qabs (x - np_mean wf)) wf <> []) by (destruct wf; [congruence|discriminate]).
  destruct (maximum_spec _ H2) as (M1 & M2 & M3). rewrite map_length in M1. set (p := argmax _) in *. exists (p - size)%nat, (Nat.min (length wf) (p + size)), p.
  split; [reflexivity|]. split; [exact M1|]. split.
  - intros x I. rewrite (nth_indep _ 0 (Qabs (0 - np_mean wf))) in M2 by (rewrite map_length; exact M1). rewrite (map_nth (fun x => Qabs (x - np_mean wf))) in M2. rewrite M2. apply M3. apply (in_map (fun x => Qabs (x - np_mean wf))). exact I.
  - intros i. lia.
Qed.
Print Assumptions C119_window.
Example C119_window_ex : define_window [1; 1; 9; 1; 1; 1] 2 = Ok (0, 4)%nat /\ define_window [1; 1; 1; 1; 9] 2 = Ok (2, 5)%nat.
Proof. split; vm_compute; reflexivity. Qed.

(** ---- random numbers with a fixed seed: what is drawn inside does not depend on the state, and the state is that of before, even if the block fails ---- *)
Theorem C119_seed : forall (S A : Type) (seeded : nat -> S) seed (body : S -> S * result A) s t, fst (with_fixed_seed seeded seed body s) = s /\ snd (with_fixed_seed seeded seed body s) = snd (with_fixed_seed seeded seed body t) /\
  snd (with_fixed_seed seeded seed body s) = snd (body (seeded seed)).
Proof. intros. unfold with_fixed_seed. destruct (body (seeded seed)). repeat split. Qed.
Print Assumptions C119_seed.
Example C119_seed_ex : with_fixed_seed (fun n => n) 5 (fun s => (S s, if (s =? 5)%nat then @Err nat ValueError else Ok s)) 9%nat = (9%nat, Err ValueError).
Proof. reflexivity. Qed.

(** ---- the seed of a linear fit ---- *)
Lemma fold_max_eq l : forall a b, a == b -> fold_left Qmax l a == fold_left Qmax l b.
Proof. induction l as [|x l IH]; intros a b E; [exact E|]. cbn [fold_left]. apply IH. rewrite E. reflexivity. Qed.
Lemma fold_min_eq l : forall a b, a == b -> fold_left Qmin l a == fold_left Qmin l b.
Proof. induction l as [|x l IH]; intros a b E; [exact E|]. cbn [fold_left]. apply IH. rewrite E. reflexivity. Qed.
Lemma line_max a b l : 0 <= b -> forall x, fold_left Qmax (map (fun x => a + b * x) l) (a + b * x) == a + b * fold_left Qmax l x.
Proof.
  intros B. induction l as [|y l IH]; intros x; [reflexivity|]. cbn [fold_left map]. rewrite <- IH. apply fold_max_eq.
  destruct (Q.max_spec x y) as [[L E]|[L E]]; rewrite E; [apply Q.max_r|apply Q.max_l]; nra.
Qed.
Lemma line_min a b l : 0 <= b -> forall x, fold_left Qmin (map (fun x => a + b * x) l) (a + b * x) == a + b * fold_left Qmin l x.
Proof.
  intros B. induction l as [|y l IH]; intros x; [reflexivity|]. cbn [fold_left map]. rewrite <- IH. apply fold_min_eq.
  destruct (Q.min_spec x y) as [[L E]|[L E]]; rewrite E; [apply Q.min_l|apply Q.min_r]; nra.
Qed.
(** points on a line that does not go down give back the line *)
Theorem C119_line : forall x a b, x <> [] -> 0 <= b -> ~ maxQ x == minQ x -> exists a' b', lin_seed x (map (fun x => a + b * x) x) = Ok (a', b') /\ a' == a /\ b' == b.
Proof.
  intros [|x0 x] a b X B D; [congruence|]. cbn [map]. unfold lin_seed. rewrite (proj2 (Qeqb_neq _ _) D). eexists _, _. split; [reflexivity|].
  assert (E1 : maxQ (a + b * x0 :: map (fun x => a + b * x) x) == a + b * maxQ (x0 :: x)) by (cbn [maxQ]; apply line_max; exact B).
  assert (E2 : minQ (a + b * x0 :: map (fun x => a + b * x) x) == a + b * minQ (x0 :: x)) by (cbn [minQ]; apply line_min; exact B).
  assert (D2 : ~ maxQ (x0 :: x) - minQ (x0 :: x) == 0) by lra.
  rewrite E1, E2. split; field; exact D2.
Qed.
Print Assumptions C119_line.
(** points on a line that goes down give a seed that goes up *)
Theorem C119_line_down_refuted : ~ forall x a b, x <> [] -> ~ maxQ x == minQ x -> exists a' b', lin_seed x (map (fun x => a + b * x) x) = Ok (a', b') /\ a' == a /\ b' == b.
Proof. intros H. destruct (H [0; 1] 5 (-(2))) as (a & b & E & _ & B); [discriminate|vm_compute; discriminate|]. vm_compute in E. injection E as <- <-. vm_compute in B. discriminate. Qed.
Print Assumptions C119_line_down_refuted.
Example C119_line_ex : match lin_seed [2; 0; 4] [5; 1; 9] with Ok (a, b) => a == 1 /\ b == 2 | Err _ => False end /\ match lin_seed [3; 3] [5; 1] with Ok (a, b) => a == 3 /\ b == 0 | Err _ => False end.
Proof. vm_compute. repeat split. Qed.
