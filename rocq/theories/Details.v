(** Exact values and refusals: additions to C12, C31, C49, C50, C52, C82, C83 and C85 *)
From Coq Require Import NArith Ascii.
From Verif Require Import SpeModel DbModel DbProps DbThr ConfigModel ConfigSpec ChanModel Base Arrays PeaksModel PeaksSpec PeaksFind.
From Verif Require DinModel KrModel.
Local Open Scope Q_scope.
Local Open Scope string_scope.
Local Open Scope list_scope.
Local Open Scope Q_scope.
Notation len := List.length.

(** C12: the square of the rms is the mean of the squares of the distances to the mean time, both weighted with the samples over the threshold; it
    is zero if they are less than two or add up to zero *)
Definition sample (p : peak) (i : nat) : Q := nth i (pmt_sum p) 0.
Definition over (p : peak) (thr : Q) (is : list nat) : Prop := NoDup is /\ forall i, In i is <-> (i < len (pmt_sum p))%nat /\ thr < sample p i.
Lemma sorted_distinct l : StronglySorted lt l -> NoDup l.
Proof. induction 1 as [|a l _ IH H]; constructor; [|exact IH]. intros C. rewrite Forall_forall in H. specialize (H a C). lia. Qed.
Lemma above_over p thr : over p thr (PeaksModel.above (pmt_sum p) thr).
Proof.
  unfold PeaksModel.above, np_where, over, sample. split; [apply sorted_distinct, where_from_sorted|]. intros i. rewrite (in_where_from _ _ 0 i 0), Nat.sub_0_r. rewrite Qltb_lt. split; intros [H1 H2]; (split; [lia|exact H2]).
Qed.
Lemma sum_taken (f : Q -> Q -> Q) (a b : list Q) is : sumQ (map2 f (take a is) (take b is)) == sumF (fun i => f (nth i a 0) (nth i b 0)) is.
Proof. unfold take. induction is as [|i is IH]; [reflexivity|]. cbn [map map2]. rewrite sumF_cons. change (f (nth i a 0) (nth i b 0) + sumQ (map2 f (map (fun i => nth i a 0) is) (map (fun i => nth i b 0) is)) == f (nth i a 0) (nth i b 0) + sumF (fun i => f (nth i a 0) (nth i b 0)) is). now rewrite IH. Qed.
Theorem C12_rms p thr is : over p thr is ->
  let w := sumF (sample p) is in let t i := nth i (p_times p) 0 in
  if (len is <? 2)%nat || Qeqb w 0 then rms2_above_threshold p thr == 0
  else exists mean, mean * w == sumF (fun i => sample p i * t i) is /\ rms2_above_threshold p thr * w == sumF (fun i => sample p i * ((t i - mean) * (t i - mean))) is.
Proof.
  intros O w t. pose proof (above_over p thr) as O'. assert (P : Permutation is (PeaksModel.above (pmt_sum p) thr)).
  { apply NoDup_Permutation; [apply O|apply O'|]. intros i. rewrite (proj2 O i), (proj2 O' i). reflexivity. }
  set (ab := PeaksModel.above (pmt_sum p) thr) in *. assert (W : sumQ (take (pmt_sum p) ab) == w).
  { unfold w. rewrite (sumF_perm _ _ _ P). unfold take, sample. clear. induction ab as [|i l IH]; [reflexivity|]. cbn [map]. rewrite sumF_cons. change (nth i (pmt_sum p) 0 + sumQ (map (fun i => nth i (pmt_sum p) 0) l) == nth i (pmt_sum p) 0 + sumF (fun i => nth i (pmt_sum p) 0) l). now rewrite IH. }
  unfold rms2_above_threshold. fold ab. rewrite (Permutation_length P). assert (Eb : Qeqb (sumQ (take (pmt_sum p) ab)) 0 = Qeqb w 0) by (destruct (Qeqb_spec (sumQ (take (pmt_sum p) ab)) 0) as [A|A], (Qeqb_spec w 0) as [B|B]; try reflexivity; [exfalso; apply B; now rewrite <- W|exfalso; apply A; now rewrite W]).
  rewrite Eb. destruct (len ab <? 2)%nat; cbn [orb]; [reflexivity|]. destruct (Qeqb_spec w 0) as [Z|NZ]; [reflexivity|]. unfold weighted_var, weighted_mean.
  set (mean := sumQ (map2 Qmult (take (pmt_sum p) ab) (take (p_times p) ab)) / sumQ (take (pmt_sum p) ab)). assert (M : mean * w == sumF (fun i => sample p i * t i) is).
  { unfold mean. rewrite W, (sumF_perm _ _ _ P). rewrite (sum_taken Qmult (pmt_sum p) (p_times p) ab). unfold sample, t. field. exact NZ. }
  exists mean. split; [exact M|]. clearbody mean. rewrite W, (sumF_perm _ _ _ P).
  assert (E : map2 Qmult (take (pmt_sum p) ab) (map (fun x => (x - mean) * (x - mean)) (take (p_times p) ab)) = map2 (fun a x => a * ((x - mean) * (x - mean))) (take (pmt_sum p) ab) (take (p_times p) ab)).
  { unfold take. clear. induction ab as [|i l IH]; [reflexivity|]. cbn [map map2]. now rewrite IH. }
  rewrite E, (sum_taken (fun a x => a * ((x - mean) * (x - mean)))). unfold sample, t. field. exact NZ.
Qed.
Print Assumptions C12_rms.

(** C31: arguments given by position are checked in order; too many of them, or one of another type, is a ValueError *)
Definition mismatch (ps : list param) (pos : list pyval) : Prop := exists i p v, nth_error ps i = Some p /\ nth_error pos i = Some v /\ type_check (ptype p) v = Ok false.
Lemma positional_checked ps pos : (forall i p v, nth_error ps i = Some p -> nth_error pos i = Some v -> exists b, type_check (ptype p) v = Ok b) ->
  (mismatch ps pos -> check_positional ps pos = Err ValueError) /\ (~ mismatch ps pos -> check_positional ps pos = Ok tt).
Proof.
  revert pos. induction ps as [|p ps IH]; intros [|v pos] T; cbn [check_positional]; try (split; [intros (i & a & b & H1 & H2 & _); destruct i; discriminate|reflexivity]).
  destruct (IH pos) as [I1 I2]; [intros i a b A B; exact (T (S i) a b A B)|]. destruct (T 0%nat p v eq_refl eq_refl) as (b & E). rewrite E. destruct b.
  - split; [intros ([|i] & a & x & A & B & C); [injection A as <-; injection B as <-; congruence|apply I1; now exists i, a, x]|]. intros N. apply I2. intros (i & a & x & H). apply N. now exists (S i), a, x.
  - split; [reflexivity|]. intros N. exfalso. apply N. exists 0%nat, p, v. now split.
Qed.
Theorem C31_positional ps pos kw : (forall i p v, nth_error ps i = Some p -> nth_error pos i = Some v -> exists b, type_check (ptype p) v = Ok b) ->
  (len ps < len pos)%nat \/ mismatch ps pos -> compare_signature_to_values ps pos kw = Err ValueError.
Proof.
  intros T H. unfold compare_signature_to_values. destruct (Nat.ltb_spec (len ps) (len pos)) as [L|L]; [reflexivity|]. destruct H as [H|H]; [lia|]. rewrite (proj1 (positional_checked ps pos T) H). reflexivity.
Qed.
Print Assumptions C31_positional.
Example C31_positional_ex : let ps := [{| pname := "a"; ptype := TInt; pdefault := None |}; {| pname := "b"; ptype := TBool; pdefault := None |}] in
  mismatch ps [VInt 3; VStr "x"] /\ compare_signature_to_values ps [VInt 3; VStr "x"] [] = Err ValueError /\ compare_signature_to_values ps [VInt 3; VBool true] [] = Ok tt.
Proof. split; [|split; reflexivity]. exists 1%nat. eexists _, _. repeat split. Qed.

(** C49: the sensors taken for PMTs have a label that starts with PMT, in letters of either case *)
Theorem C49_pmt_label s : like_pmt s = true <-> exists a b c rest, s = String a (String b (String c rest)) /\ In a ["P"; "p"]%char /\ In b ["M"; "m"]%char /\ In c ["T"; "t"]%char.
Proof.
  assert (L : forall x u l, is_letter x u l = true <-> In x [u; l]). { intros x u l. unfold is_letter. rewrite orb_true_iff, !Ascii.eqb_eq. cbn. split; [intros [->| ->]; tauto|intros [<-|[<-|[]]]; tauto]. }
  destruct s as [|a [|b [|c r]]]; cbn [like_pmt]; try (split; [discriminate|intros (? & ? & ? & ? & E & _); discriminate]).
  rewrite !andb_true_iff, !L. split; [intros [[A B] C]; exists a, b, c, r; now repeat split|]. intros (a' & b' & c' & r' & E & H). injection E as <- <- <- <-. tauto.
Qed.
Print Assumptions C49_pmt_label.

(** C50: the thresholds in other units are those in photoelectrons times the conversion factor of each sensor *)
Definition converted (e : ext) (f : Q) (r : ext) : Prop :=
  match e with
  | Fin x => exists y, r = Fin y /\ y == x * f
  | Inf => 0 < f /\ r = Inf \/ f < 0 /\ r = NegInf \/ f == 0 /\ r = NaN
  | NegInf => 0 < f /\ r = NegInf \/ f < 0 /\ r = Inf \/ f == 0 /\ r = NaN
  | NaN => r = NaN
  end.
Lemma times_converted e f : converted e f (times e f).
Proof.
  destruct e; cbn [converted times]; [eexists; split; reflexivity| | |reflexivity]; (destruct (Qltb_spec 0 f); [left; split; [assumption|reflexivity]|]; destruct (Qltb_spec f 0); [right; left; split; [assumption|reflexivity]|right; right; split; [lra|reflexivity]]).
Qed.
Lemma times_one e : converted e 1 (times e 1) /\ (forall f r, converted (times e 1) f r -> converted e f r).
Proof. split; [apply times_converted|]. intros f r. destruct e as [x| | |]; cbn; auto. intros (y & -> & E). exists y. split; [reflexivity|]. rewrite E. ring. Qed.
Theorem C50_converted xbins active probs cut factors r : len factors = len probs ->
  compute_thresholds xbins active probs cut (map (fun _ => 1) probs) = Ok r -> exists r', compute_thresholds xbins active probs cut factors = Ok r' /\ Forall2 (fun ef x => converted (fst ef) (snd ef) x) (combine r factors) r'.
Proof.
  unfold compute_thresholds. intros L. destruct (sampler_probs active probs) as [ps|]; [|discriminate]. cbn [rbind]. destruct (general_thresholds xbins ps cut) as [cuts|]; [|discriminate]. cbn [rbind]. rewrite map_length, L.
  destruct (Nat.eqb_spec (len cuts) (len probs)) as [E|]; [|discriminate]. intros H. injection H as <-. eexists. split; [reflexivity|]. rewrite <- L in E. revert L E. generalize probs. intros ones L E. assert (Lo : len (map (fun _ : list Q => 1) ones) = len cuts) by (rewrite map_length; lia).
  assert (One : forall x, In x (map (fun _ : list Q => 1) ones) -> x = 1) by (intros x Hx; apply in_map_iff in Hx; now destruct Hx as (? & <- & _)). revert Lo One. generalize (map (fun _ : list Q => 1) ones). clear L ones. revert factors E.
  induction cuts as [|e cuts IH]; intros [|f factors] E [|o ones] Lo One; cbn in E, Lo; try lia; cbn [map2 combine]; constructor; cbn [fst snd].
  - rewrite (One o (or_introl eq_refl)). destruct e as [x| | |]; cbn [times]; try apply times_converted. cbn. exists (x * f). split; [reflexivity|ring].
  - apply IH; [lia|lia|]. intros x Hx. apply One. now right.
Qed.
Print Assumptions C50_converted.
Example C50_converted_ex : compute_thresholds [-1; 0; 1; 2] [true; false; true] [[1; 3; 4; 2]; [1; 3; 4; 2]; [0; 0; 0; 0]] (8 # 10) [3; -1; 0] = Ok [Fin 3; NegInf; NaN].
Proof. reflexivity. Qed.

(** C52, C83: the value that stands for no value, and the precision of 32-bit numbers *)
Theorem C52_missing_value : KrModel.NN = Some (-999999).
Proof. reflexivity. Qed.
Print Assumptions C52_missing_value.
Theorem C83_precision : DinModel.eps32 == / inject_Z (2 ^ 23).
Proof. reflexivity. Qed.
Print Assumptions C83_precision.

(** C82: the seeds given to the fit are the values found before, but a negative number of photoelectrons, for which it is 0.001 *)
Theorem C82_seeds gau ped norm mu gain sigma : let '(seeds, (lo, hi)) := seeds_and_bounds gau ped norm mu gain sigma in
  seeds = norm :: (if Qltb mu 0 then 1 # 1000 else mu) :: (if gau then [p_gain ped; p_sigma ped] else []) ++ [gain; sigma] /\ len lo = len seeds /\ len hi = len seeds /\ nth 1 hi None = Some 10000 /\ hd None hi = None.
Proof. destruct gau; repeat split. Qed.
Print Assumptions C82_seeds.

(** C85: a value of another shape is refused *)
Theorem C85_shapes f32 cols key v row i s : index_of key (map fst cols) = Some i -> nth_error cols i = Some (key, s) ->
  match s, v with
  | pair_of, Vec l => len l = 2%nat
  | matrix r c, Mat m => len m = r /\ forall l, In l m -> len l = c
  | _, _ => False
  end <-> exists row', set_item f32 cols key v row = Ok row'.
Proof.
  intros E N. unfold set_item. rewrite E, N. cbn [snd]. assert (F : fits s v = true <-> match s, v with pair_of, Vec l => len l = 2%nat | matrix r c, Mat m => len m = r /\ forall l, In l m -> len l = c | _, _ => False end).
  { destruct s as [|r c], v as [l|m]; cbn [fits]; try (split; [discriminate|contradiction]); [apply Nat.eqb_eq|]. rewrite andb_true_iff, forallb_forall, Nat.eqb_eq. split; intros [A B]; (split; [exact A|]); intros l Hl; apply Nat.eqb_eq, (B l Hl). }
  rewrite <- F. destruct (fits s v); [split; [eexists; reflexivity|reflexivity]|split; [discriminate|intros (? & C); discriminate]].
Qed.
Print Assumptions C85_shapes.
Example C85_shapes_ex : set_item (fun x => x) [("covariance"%string, matrix 2 2)] "covariance" (Mat [[1; 0]]) [] = Err ValueError.
Proof. reflexivity. Qed.
