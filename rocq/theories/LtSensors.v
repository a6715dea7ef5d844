(** C76: the light tables of the sensors at the anode *)
From Coq Require Import Lia Lqa Qround.
From Verif Require Import Base Arrays PeaksModel PeaksProofs BuffersModel BuffersProofs BuffersEvent LtModel LtSpec LtProps.
Local Open Scope Q_scope.

Lemma maxs_spec l a : In (fold_left Qmax l a) (a :: l) \/ exists b, In b (a :: l) /\ fold_left Qmax l a == b.
Proof.
  revert a. induction l as [|c l IH]; intros a; [left; now left|]. cbn [fold_left]. right. destruct (IH (Qmax a c)) as [H|(b & H & E)].
  - destruct H as [H|H]; [|exists (fold_left Qmax l (Qmax a c)); split; [right; right; exact H|reflexivity]]. rewrite <- H. destruct (Q.max_dec a c) as [E|E]; [exists a|exists c]; (split; [cbn; auto|exact E]).
  - destruct H as [H|H]; [|exists b; split; [right; right; exact H|exact E]]. subst b. destruct (Q.max_dec a c) as [E'|E']; [exists a|exists c]; (split; [cbn; auto|now rewrite E]).
Qed.
Lemma maxs_above l a b : In b (a :: l) -> b <= fold_left Qmax l a.
Proof.
  revert a b. induction l as [|c l IH]; intros a b H; [destruct H as [<-|[]]; apply Qle_refl|]. cbn [fold_left]. assert (Qmax a c <= fold_left Qmax l (Qmax a c)) by (apply IH; now left).
  destruct H as [<-|[<-|H]]; [pose proof (Q.le_max_l a c); lra|pose proof (Q.le_max_r a c); lra|apply IH; now right].
Qed.
Lemma sqrt_row d2 bin : 0 < bin -> 0 <= d2 -> let k := Z.to_nat (Z.sqrt (Qfloor (d2 / (bin * bin)))) in
  (qn k * bin) * (qn k * bin) <= d2 /\ d2 < (qn (S k) * bin) * (qn (S k) * bin).
Proof.
  intros B D. cbn zeta. assert (BB : 0 < bin * bin) by nra. assert (D' : 0 <= d2 / (bin * bin)) by (apply Qle_shift_div_l; lra). pose proof (Qfloor_le (d2 / (bin * bin))) as F1. pose proof (Qlt_floor (d2 / (bin * bin))) as F2.
  assert (F0 : (0 <= Qfloor (d2 / (bin * bin)))%Z) by (change 0%Z with (Qfloor 0); now apply Qfloor_resp_le). set (f := Qfloor (d2 / (bin * bin))) in *. pose proof (Z.sqrt_spec f F0) as (S1 & S2). pose proof (Z.sqrt_nonneg f).
  set (s := Z.sqrt f) in *. clearbody s f. assert (E : d2 == (d2 / (bin * bin)) * (bin * bin)) by (field; lra). set (q := d2 / (bin * bin)) in *. clearbody q.
  unfold qn. rewrite Nat2Z.inj_succ, Z2Nat.id by assumption. rewrite Zle_Qle in S1. rewrite inject_Z_mult in S1.
  assert (S3 : inject_Z (f + 1) <= inject_Z (Z.succ s) * inject_Z (Z.succ s)) by (rewrite <- inject_Z_mult, <- Zle_Qle; lia). split.
  - rewrite E. setoid_replace (inject_Z s * bin * (inject_Z s * bin)) with (inject_Z s * inject_Z s * (bin * bin)) by ring. apply Qmult_le_compat_r; lra.
  - rewrite E. setoid_replace (inject_Z (Z.succ s) * bin * (inject_Z (Z.succ s) * bin)) with (inject_Z (Z.succ s) * inject_Z (Z.succ s) * (bin * bin)) by ring. apply Qmult_lt_compat_r; lra.
Qed.
Lemma skipn_nth {A} (l : list A) k a : nth_error l k = Some a -> skipn k l = a :: skipn (S k) l.
Proof. revert l. induction k as [|k IH]; intros [|b l] H; try discriminate; [injection H as ->; reflexivity|]. apply IH in H. exact H. Qed.
Lemma memory_row values k row : nth_error values k = Some row -> memory values k (length row) = Ok row.
Proof.
  intros H. unfold memory. rewrite H. rewrite (skipn_nth _ _ _ H). cbn [concat]. rewrite app_length. destruct (Nat.ltb_spec (length row + length (concat (skipn (S k) values))) (length row)); [lia|].
  rewrite firstn_app, Nat.sub_diag, firstn_all. cbn [firstn]. now rewrite app_nil_r.
Qed.
Lemma sq_lt a b : 0 <= b -> a * a < b * b -> a < b.
Proof. intros B H. apply Qnot_le_lt. intros C. nra. Qed.
Lemma sq_nonneg (a : Q) : 0 <= a * a.
Proof. destruct (Qlt_le_dec a 0); nra. Qed.

(** a SiPM: the row of the distance to the electron, shared by the partitions of the gap; nothing beyond the table or outside the active volume *)
Theorem C76_sipm table pitch gap active sensors ratio bin : (2 <= length table)%nat -> 0 < bin -> 0 < ratio ->
  (forall k r, nth_error table k = Some r -> fst r == qn k * bin /\ length (snd r) = length (el_bins pitch gap)) ->
  exists lt, make_lt_sipm table pitch gap active sensors ratio = Ok lt /\ forall x y s, exists v, sipm_values lt x y s = Ok v /\
    match nth_error sensors s with
    | None => v = repeat 0 (length (el_bins pitch gap))
    | Some p =>
      let reach := qn (length table - 1) * bin in
      (reach * reach < plane2 (x, y) p \/ active * active <= x * x + y * y -> v = repeat 0 (length (el_bins pitch gap))) /\
      (plane2 (x, y) p <= reach * reach -> x * x + y * y < active * active ->
        exists k r, nth_error table k = Some r /\ (qn k * bin) * (qn k * bin) <= plane2 (x, y) p /\ plane2 (x, y) p < (qn (S k) * bin) * (qn (S k) * bin) /\
          v = map (fun e => e / qn (length (el_bins pitch gap)) * ratio) (snd r))
    end.
Proof.
  intros L B P T. unfold make_lt_sipm. assert (Qle_bool ratio 0 = false) as -> by (destruct (Qle_bool ratio 0) eqn:C; [apply Qle_bool_iff in C; lra|reflexivity]).
  destruct table as [|[d0 r0] [|[d1 r1] t]]; [cbn in L; lia|cbn in L; lia|]. set (table := (d0, r0) :: (d1, r1) :: t) in *.
  assert (Eb : d1 - d0 == bin).
  { destruct (T 0%nat _ eq_refl) as (A & _). destruct (T 1%nat _ eq_refl) as (A' & _). cbn [fst] in A, A'. rewrite A, A'. unfold qn. change (inject_Z (Z.of_nat 1)) with 1. change (inject_Z (Z.of_nat 0)) with 0. ring. }
  assert (Qeqb (d1 - d0) 0 = false) as -> by (apply Qeqb_neq; lra). eexists. split; [reflexivity|].
  assert (M : fold_left Qmax (map fst table) d0 == qn (length table - 1) * bin).
  { apply Qle_antisym.
    - assert (A : forall b, In b (d0 :: map fst table) -> b <= qn (length table - 1) * bin).
      { assert (G : forall b, In b (map fst table) -> b <= qn (length table - 1) * bin).
        { intros b Hb. apply in_map_iff in Hb. destruct Hb as (r & <- & Hr). apply In_nth_error in Hr. destruct Hr as (k & Hk). destruct (T k r Hk) as (-> & _). apply Qmult_le_compat_r; [|lra].
          assert (k < length table)%nat by (apply nth_error_Some; congruence). unfold qn. rewrite <- Zle_Qle. lia. }
        intros b [<-|Hb]; [|now apply G]. apply G. now left. }
      destruct (maxs_spec (map fst table) d0) as [H|(b & H & E)]; [now apply A|rewrite E; now apply A].
    - destruct (nth_error table (length table - 1)) as [r|] eqn:E; [|apply nth_error_None in E; lia]. destruct (T _ r E) as (Er & _). rewrite <- Er. apply maxs_above. right. apply in_map. now apply nth_error_In in E. }
  set (reach := qn (length table - 1) * bin) in *. assert (R0 : 0 <= reach) by (apply Qmult_le_0_compat; [unfold qn; change 0 with (inject_Z 0); rewrite <- Zle_Qle; lia|lra]).
  intros x y s. unfold sipm_values. cbn [ls_zbins ls_sensors ls_max ls_active ls_bin ls_values]. destruct (nth_error sensors s) as [[xs ys]|]; [|eexists; split; reflexivity].
  change ((x - xs) * (x - xs) + (y - ys) * (y - ys)) with (plane2 (x, y) (xs, ys)). set (d2 := plane2 (x, y) (xs, ys)). assert (D0 : 0 <= d2) by (unfold d2, plane2; cbn [fst snd]; pose proof (sq_nonneg (x - xs)); pose proof (sq_nonneg (y - ys)); lra). clearbody d2.
  assert (MM : fold_left Qmax (map fst table) d0 * fold_left Qmax (map fst table) d0 == reach * reach) by now rewrite M.
  destruct (Qltb (fold_left Qmax (map fst table) d0 * fold_left Qmax (map fst table) d0) d2) eqn:C1.
  { apply Qltb_lt in C1. rewrite MM in C1. eexists. split; [reflexivity|]. cbn zeta. split; [reflexivity|intros; lra]. }
  assert (C1' : d2 <= reach * reach) by (rewrite <- MM; apply Qnot_lt_le; intros C; apply Qltb_lt in C; congruence). clear C1.
  destruct (Qle_bool (active * active) (x * x + y * y)) eqn:C2.
  { apply Qle_bool_iff in C2. eexists. split; [reflexivity|]. cbn zeta. split; [reflexivity|intros; lra]. }
  assert (C2' : x * x + y * y < active * active) by (apply Qnot_le_lt; intros C; apply Qle_bool_iff in C; congruence).
  assert (Qltb (d1 - d0) 0 = false) as -> by (apply not_true_is_false; intros C; apply Qltb_lt in C; lra).
  assert (Ek : Qfloor (d2 / ((d1 - d0) * (d1 - d0))) = Qfloor (d2 / (bin * bin))) by (apply Qfloor_comp; rewrite Eb; reflexivity). rewrite Ek.
  destruct (sqrt_row d2 bin B D0) as (K1 & K2). cbn zeta in K1, K2. set (k := Z.to_nat (Z.sqrt (Qfloor (d2 / (bin * bin))))) in *.
  assert (Hk : (k < length table)%nat).
  { assert (A : qn k * bin <= reach) by (apply Qnot_lt_le; intros C; assert (reach * reach < qn k * bin * (qn k * bin)) by nra; lra). unfold reach in A. assert (qn k <= qn (length table - 1)) as A' by (apply Qmult_lt_0_le_reg_r with bin; assumption).
    unfold qn in A'. rewrite <- Zle_Qle in A'. lia. }
  destruct (nth_error table k) as [r|] eqn:Er; [|apply nth_error_None in Er; lia]. destruct (T k r Er) as (_ & Lr).
  set (g := fun r : Q * list Q => map (fun v => v / qn (length (el_bins pitch gap)) * ratio) (snd r)). assert (Eg : nth_error (map g table) k = Some (g r)) by now apply map_nth_error.
  exists (g r). split.
  { rewrite <- (memory_row _ _ _ Eg). f_equal. unfold g. rewrite map_length. now symmetry. }
  cbn zeta. split; [intros [C|C]; lra|]. intros _ _. exists k, r. auto.
Qed.
Print Assumptions C76_sipm.

(** finding: a gap wider than that of the table is read from the rows of larger distances *)
Theorem C76_gap_refuted : exists lt, make_lt_sipm [(0, [4; 4]); (1, [2; 2]); (2, [1; 1])] 1 4 10 [(0, 0)] 1 = Ok lt /\
  exists v, sipm_values lt (1 # 2) 0 0 = Ok v /\ map Qred v = [1; 1; 1 # 2; 1 # 2].
Proof. eexists. split; [vm_compute; reflexivity|]. eexists. split; [vm_compute; reflexivity|reflexivity]. Qed.
(** finding: a table of distances that does not start at zero is read out of place *)
Theorem C76_offset_refuted : exists lt, make_lt_sipm [(5, [4]); (6, [2]); (7, [1])] 1 1 10 [(0, 0)] 1 = Ok lt /\ sipm_values lt 1 0 0 = Ok [2 / 1 * 1] /\ sipm_values lt 5 0 0 = Err IndexError.
Proof. eexists. split; [vm_compute; reflexivity|]. split; vm_compute; reflexivity. Qed.

Lemma minimum_spec l : l <> [] -> forall b, In b l -> minimum l <= b.
Proof.
  destruct l as [|a l]; [congruence|]. intros _. cbn [minimum]. revert a. induction l as [|c l IH]; intros a b H; [destruct H as [<-|[]]; apply Qle_refl|]. cbn [fold_left]. assert (fold_left Qmin l (Qmin a c) <= Qmin a c) by (apply IH; now left).
  destruct H as [<-|[<-|H]]; [pose proof (Q.le_min_l a c); lra|pose proof (Q.le_min_r a c); lra|apply IH; now right].
Qed.
Lemma low_end_ok R m bin : 0 < bin -> m <= 0 -> low_end R m bin <= - R.
Proof.
  intros B M. unfold low_end. pose proof (Qle_ceiling ((R - Qabs m) / bin)) as C. set (c := inject_Z (Qceiling ((R - Qabs m) / bin))) in *. clearbody c. assert ((R - Qabs m) <= c * bin).
  { apply (Qmult_le_compat_r _ _ bin) in C; [|lra]. assert ((R - Qabs m) / bin * bin == R - Qabs m) by (field; lra). lra. }
  assert (Qabs m == - m) by (apply Qabs_neg; lra). lra.
Qed.
Lemma high_end_ok R m bin : 0 < bin -> 0 <= m -> R <= high_end R m bin.
Proof.
  intros B M. unfold high_end. pose proof (Qle_ceiling ((R - Qabs m) / bin)) as C. set (c := inject_Z (Qceiling ((R - Qabs m) / bin))) in *. clearbody c. assert ((R - Qabs m) <= c * bin).
  { apply (Qmult_le_compat_r _ _ bin) in C; [|lra]. assert ((R - Qabs m) / bin * bin == R - Qabs m) by (field; lra). lra. }
  assert (Qabs m == m) by (apply Qabs_pos; lra). lra.
Qed.
Lemma nth_error_arange a b w k : (k < length (arange a b w))%nat -> exists v, nth_error (arange a b w) k = Some v /\ v == a + qn k * w.
Proof.
  intros H. unfold arange in *. rewrite map_length, seq_length in H. eexists. split; [apply map_nth_error, (nth_error_nth' _ 0%nat); now rewrite seq_length|]. rewrite seq_nth by assumption. cbn [Nat.add]. unfold qn. ring.
Qed.
(** the index of a coordinate is that of a point of the axis at half a bin at most *)
Lemma axis_index lo hi bin x R : 0 < bin -> lo <= - R -> R <= hi -> - R <= x -> x < R ->
  (0 <= cround ((x - lo) / bin))%Z /\ exists v, nth_error (arange lo (hi + bin / 2) bin) (Z.to_nat (cround ((x - lo) / bin))) = Some v /\ Qabs (x - v) <= bin / 2.
Proof.
  intros B L H X1 X2. assert (Q0 : 0 <= (x - lo) / bin) by (apply Qle_shift_div_l; lra). unfold cround. rewrite (proj2 (Qle_bool_iff _ _) Q0). set (q := (x - lo) / bin) in *. assert (Eq : x == lo + q * bin) by (unfold q; field; lra).
  pose proof (Qfloor_le (q + (1 # 2))) as F1. pose proof (Qlt_floor (q + (1 # 2))) as F2. rewrite inject_Z_plus in F2. change (inject_Z 1) with 1 in F2.
  assert (F0 : (0 <= Qfloor (q + (1 # 2)))%Z) by (change 0%Z with (Qfloor 0); apply Qfloor_resp_le; lra). split; [assumption|]. set (f := Qfloor (q + (1 # 2))) in *.
  assert (HL : (Z.to_nat f < length (arange lo (hi + bin / 2) bin))%nat).
  { unfold arange. rewrite map_length, seq_length. apply Z2Nat.inj_lt; [assumption| |].
    - assert (0 <= Qceiling ((hi + bin / 2 - lo) / bin))%Z; [|assumption]. change 0%Z with (Qceiling 0). apply Qceiling_resp_le. apply Qle_shift_div_l; [assumption|]. assert (0 <= bin / 2) by (apply Qle_shift_div_l; lra). lra.
    - pose proof (Qle_ceiling ((hi + bin / 2 - lo) / bin)) as C. assert (A : q + (1 # 2) < (hi + bin / 2 - lo) / bin).
      { apply Qlt_shift_div_l; [assumption|]. assert (bin / 2 == (1 # 2) * bin) by field. lra. }
      rewrite Zlt_Qlt. lra. }
  destruct (nth_error_arange lo (hi + bin / 2) bin (Z.to_nat f) HL) as (v & Ev & Hv). exists v. split; [exact Ev|]. unfold qn in Hv. rewrite Z2Nat.id in Hv by assumption. assert (Eb : bin / 2 == (1 # 2) * bin) by field. rewrite Eb.
  assert (x - v == (q - inject_Z f) * bin) by (rewrite Eq, Hv; ring). apply Qabs_Qle_condition. split; nra.
Qed.

Section PMT.
  Variable nearest : list (Q * Q) -> Q * Q -> nat.
  Hypothesis griddata : takes_nearest nearest.
  (** a PMT: the value of the row nearest to the point of the grid of the electron, when the table covers the same range in x and in y *)
  Theorem C76_pmt table n bin gap active ratio : table <> [] -> 0 < bin -> 0 < ratio -> 0 < gap ->
    minimum (map (fun r => fst (fst r)) table) = minimum (map (fun r => snd (fst r)) table) ->
    maximum (map (fun r => fst (fst r)) table) = maximum (map (fun r => snd (fst r)) table) ->
    minimum (map (fun r => fst (fst r)) table) <= 0 -> 0 <= maximum (map (fun r => fst (fst r)) table) -> 0 <= active ->
    exists lt, make_lt_pmt nearest table n bin bin gap active ratio = Ok lt /\ forall x y s, exists v, pmt_values lt x y s = Ok [v] /\
      (active * active <= x * x + y * y \/ (n <= s)%nat -> v = 0) /\
      (x * x + y * y < active * active -> (s < n)%nat -> exists gx gy r, Qabs (x - gx) <= bin / 2 /\ Qabs (y - gy) <= bin / 2 /\ In r table /\
         (forall r', In r' table -> plane2 (gx, gy) (fst r) <= plane2 (gx, gy) (fst r')) /\ v = nth s (snd r) 0 * ratio).
  Proof using griddata.
    intros N B P G E1 E2 M1 M2 A. unfold make_lt_pmt. assert (Qle_bool ratio 0 = false) as -> by (destruct (Qle_bool ratio 0) eqn:C; [apply Qle_bool_iff in C; lra|reflexivity]).
    destruct table as [|r0 t] eqn:Et; [congruence|]. rewrite <- Et in *. assert (Qeqb bin 0 = false) as -> by (apply Qeqb_neq; lra). cbn [orb]. rewrite <- E1. unfold axis at 1. unfold axis at 1. rewrite <- E1, <- E2.
    set (lo := low_end active (minimum (map (fun r => fst (fst r)) table)) bin). set (hi := high_end active (maximum (map (fun r => fst (fst r)) table)) bin). eexists. split; [reflexivity|]. intros x y s.
    assert (LO : lo <= - active) by (apply low_end_ok; assumption). assert (HI : active <= hi) by (apply high_end_ok; assumption). clearbody lo hi.
    unfold pmt_values. cbn [lp_zbins lp_active lp_sensors lp_xmin lp_ymin lp_binx lp_biny lp_values].
    assert (ZB : length (el_bins gap gap) = 1%nat).
    { unfold el_bins, arange. rewrite map_length, seq_length. assert ((gap - gap / 2) / gap == 1 # 2) as H by (field; lra). rewrite (Qceiling_comp _ _ H). reflexivity. }
    rewrite ZB. destruct (Qle_bool (active * active) (x * x + y * y)) eqn:C1; [apply Qle_bool_iff in C1; exists 0; split; [reflexivity|split; [reflexivity|intros; lra]]|].
    assert (C1' : x * x + y * y < active * active) by (apply Qnot_le_lt; intros C; apply Qle_bool_iff in C; congruence). destruct (Nat.leb_spec n s) as [C2|C2]; [exists 0; split; [reflexivity|split; [reflexivity|intros; lia]]|].
    assert (X : - active <= x /\ x < active) by (pose proof (sq_nonneg y); split; [apply Qnot_lt_le; intros C; nra|apply Qnot_le_lt; intros C; nra]).
    assert (Y : - active <= y /\ y < active) by (pose proof (sq_nonneg x); split; [apply Qnot_lt_le; intros C; nra|apply Qnot_le_lt; intros C; nra]). destruct X as (X1 & X2), Y as (Y1 & Y2).
    destruct (axis_index lo hi bin x active B LO HI X1 X2) as (I0 & gx & Igx & Hgx). destruct (axis_index lo hi bin y active B LO HI Y1 Y2) as (J0 & gy & Igy & Hgy).
    rewrite (proj2 (Z.ltb_ge _ _) I0), (proj2 (Z.ltb_ge _ _) J0). cbn [orb]. set (ax := arange lo (hi + bin / 2) bin) in *.
    set (V := fun yy xx => map (fun s0 => nth s0 (snd (nth (nearest (map fst table) (yy, xx)) table (0, 0, []))) 0 * ratio) (seq 0 n)).
    assert (V1 : nth_error (map (fun yy => map (V yy) ax) ax) (Z.to_nat (cround ((x - lo) / bin))) = Some (map (V gx) ax)) by (apply (map_nth_error (fun yy => map (V yy) ax)); exact Igx).
    change (nth_error (map (fun yy : Q => map (fun xx : Q => map (fun s0 : nat => nth s0 (snd (nth (nearest (map fst table) (yy, xx)) table (0, 0, []))) 0 * ratio) (seq 0 n)) ax) ax)) with (nth_error (map (fun yy => map (V yy) ax) ax)).
    rewrite V1. assert (V2 : nth_error (map (V gx) ax) (Z.to_nat (cround ((y - lo) / bin))) = Some (V gx gy)) by (apply map_nth_error; exact Igy). rewrite V2. eexists. split; [reflexivity|]. split; [intros [C|C]; [lra|lia]|]. intros _ _.
    set (k := nearest (map fst table) (gx, gy)). destruct (griddata (map fst table) (gx, gy)) as (K1 & K2); [rewrite Et; discriminate|]. fold k in K1, K2. rewrite map_length in K1. exists gx, gy, (nth k table (0, 0, [])).
    split; [exact Hgx|]. split; [exact Hgy|]. split; [now apply nth_In|]. split.
    - intros r' Hr'. specialize (K2 (fst r') (in_map fst _ _ Hr')). change (0, 0) with (fst ((0 : Q), (0 : Q), @nil Q)) in K2. rewrite map_nth in K2. exact K2.
    - unfold V. match goal with |- nth s (map ?f _) _ = _ => rewrite (nth_indep _ 0 (f 0%nat)) by (rewrite map_length, seq_length; exact C2); rewrite (map_nth f) end. rewrite seq_nth by assumption. reflexivity.
  Qed.
End PMT.
Print Assumptions C76_pmt.

(** the first of the nearest points *)
Fixpoint first_nearest_from (l : list (Q * Q)) (p : Q * Q) : nat :=
  match l with
  | [] => 0
  | a :: l' => let k := first_nearest_from l' p in if Qle_bool (plane2 p a) (plane2 p (nth k l' a)) then 0 else S k
  end.
Lemma first_nearest_ok : takes_nearest first_nearest_from.
Proof.
  intros l p. induction l as [|a l IH]; [congruence|]. intros _. cbn [first_nearest_from]. destruct l as [|b l].
  - cbn [first_nearest_from nth]. rewrite (proj2 (Qle_bool_iff _ _) (Qle_refl _)). split; [cbn; lia|]. intros q [<-|[]]. apply Qle_refl.
  - destruct IH as (K & M); [discriminate|]. set (k := first_nearest_from (b :: l) p) in *. rewrite (nth_indep _ a (0, 0)) by assumption.
    destruct (Qle_bool (plane2 p a) (plane2 p (nth k (b :: l) (0, 0)))) eqn:C.
    + apply Qle_bool_iff in C. split; [cbn; lia|]. intros q [<-|H]; [apply Qle_refl|]. change (nth 0 (a :: b :: l) (0, 0)) with a. eapply Qle_trans; [exact C|now apply M].
    + assert (C' : plane2 p (nth k (b :: l) (0, 0)) < plane2 p a) by (apply Qnot_le_lt; intros C'; apply Qle_bool_iff in C'; congruence). split; [cbn [length] in *; lia|].
      change (nth (S k) (a :: b :: l) (0, 0)) with (nth k (b :: l) (0, 0)). intros q [<-|H]; [now apply Qlt_le_weak|now apply M].
Qed.
Definition corners : list (Q * Q * list Q) := [(-1, -1, [1]); (-1, 1, [2]); (1, -1, [3]); (1, 1, [4])].
Example C76_pmt_example : exists lt, make_lt_pmt first_nearest_from corners 1 2 2 5 (3 # 2) 1 = Ok lt /\ pmt_values lt (1 # 2) (- (1 # 2)) 0 = Ok [3 * 1] /\ pmt_values lt 0 (3 # 2) 0 = Ok [0].
Proof. eexists. split; [vm_compute; reflexivity|]. split; vm_compute; reflexivity. Qed.
Example C76_pmt_hypotheses : corners <> [] /\ 0 < 2 /\ minimum (map (fun r => fst (fst r)) corners) = minimum (map (fun r => snd (fst r)) corners) /\
  maximum (map (fun r => fst (fst r)) corners) = maximum (map (fun r => snd (fst r)) corners) /\ minimum (map (fun r => fst (fst r)) corners) <= 0 /\ 0 <= maximum (map (fun r => fst (fst r)) corners) /\ takes_nearest first_nearest_from.
Proof. split; [discriminate|]. split; [reflexivity|]. split; [reflexivity|]. split; [reflexivity|]. split; [discriminate|]. split; [discriminate|]. apply first_nearest_ok. Qed.
(** finding: with other ranges in x and in y, the electron at (1.2, -1) gets the light of (0, -1), not that of (2, -1), which is closer *)
Theorem C76_transposed_refuted : exists lt, make_lt_pmt first_nearest_from [(-2, -1, [1]); (-2, 1, [2]); (0, -1, [3]); (0, 1, [4]); (2, -1, [5]); (2, 1, [6])] 1 2 2 5 2 1 = Ok lt /\
  pmt_values lt (6 # 5) (-1) 0 = Ok [3 * 1].
Proof. eexists. split; [vm_compute; reflexivity|]. vm_compute. reflexivity. Qed.
Definition psf : list (Q * list Q) := [(0, [4; 4]); (1, [2; 2]); (2, [1; 1])].
Example C76_sipm_example : exists lt, make_lt_sipm psf 1 2 10 [(0, 0); (3, 4)] 1 = Ok lt /\ sipm_values lt 2 3 1 = Ok [2 / qn 2 * 1; 2 / qn 2 * 1] /\ sipm_values lt 2 3 0 = Ok [0; 0].
Proof. eexists. split; [vm_compute; reflexivity|]. split; vm_compute; reflexivity. Qed.
Example C76_sipm_hypotheses : (2 <= length psf)%nat /\ 0 < 1 /\ forall k r, nth_error psf k = Some r -> fst r == qn k * 1 /\ length (snd r) = length (el_bins 1 2).
Proof. split; [cbn; lia|]. split; [reflexivity|]. intros [|[|[|[|k]]]] r H; try discriminate; injection H as <-; split; reflexivity. Qed.
(** three rows: a position between two centres, one at the same distance of both, one outside *)
Definition rows : list lt_row := [(0, 0, 1, [1; 2]); (4, 0, 1, [3; 4]); (0, 4, 1, [5; 6])].
Example C76_lighttable_example : exists f, lighttable_function rows 2 6 = Ok f /\ f [1; 2; 3; 3; 5] [0; 0; 1; 3; 4] [1] = Ok [[1; 2]; [1; 2]; [3; 4]; [0; 0]; [0; 0]].
Proof. eexists. split; [vm_compute; reflexivity|]. vm_compute. reflexivity. Qed.
Example C76_lighttable_hypotheses : rows <> [] /\ distinct_positions rows /\ 0 < 6.
Proof. split; [discriminate|]. split; [|reflexivity]. repeat constructor; intros (A & B & C); cbn in A, B; try (unfold Qeq in A; cbn in A; discriminate); unfold Qeq in B; cbn in B; discriminate. Qed.
(** finding: a table with a position twice is refused *)
Theorem C76_repeated_refuted : exists f, lighttable_function ((0, 0, 1, [7; 8]) :: rows) 2 6 = Ok f /\ f [1] [0] [1] = Err ValueError.
Proof. eexists. split; [vm_compute; reflexivity|]. vm_compute. reflexivity. Qed.
Print Assumptions C76_gap_refuted.
Print Assumptions C76_offset_refuted.
Print Assumptions C76_transposed_refuted.
Print Assumptions C76_repeated_refuted.
