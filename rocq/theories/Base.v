(** Shared vocabulary: Python-like results, list slices, sums over Q *)
From Coq Require Export List Bool Arith ZArith QArith Qround Qminmax Lia Lqa Permutation Sorting.Sorted.
From Coq Require Export Qabs.
From Coq Require Import Setoid Morphisms.
Export ListNotations.
Local Open Scope Q_scope.
Global Arguments Qplus : simpl never.
Global Arguments Qmult : simpl never.
Global Arguments Qminus : simpl never.
Global Arguments Qopp : simpl never.
Global Arguments Qdiv : simpl never.
Global Arguments Qinv : simpl never.
Global Arguments Qle_bool : simpl never.
Global Arguments Qeq_bool : simpl never.
Global Arguments inject_Z : simpl never.

(** Python exceptions that the modelled functions can raise *)
Inductive pyexc :=
| IndexError | ValueError | AttributeError | KeyError | TypeError
| ZeroDivisionError | AssertionError | UnboundLocalError
| NotModelled   (** not an exception of the code: it carries on with nan, the model stops *)
| Other (n : nat).

Inductive result (A : Type) := Ok (a : A) | Err (e : pyexc).
Arguments Ok {A} a. Arguments Err {A} e.

Definition rbind {A B} (r : result A) (f : A -> result B) : result B :=
  match r with Ok a => f a | Err e => Err e end.

(** run a fallible function over a list, stopping at the first exception *)
Fixpoint rmap {A B} (f : A -> result B) (l : list A) : result (list B) :=
  match l with
  | [] => Ok []
  | a :: l => match f a with
              | Err e => Err e
              | Ok b => match rmap f l with Err e => Err e | Ok bs => Ok (b :: bs) end
              end
  end.

(** l[a:b] for 0 <= a, b (Python/NumPy slices truncate) *)
Definition slice {A} (a b : nat) (l : list A) : list A := firstn (b - a) (skipn a l).

Fixpoint sumQ (l : list Q) : Q := match l with [] => 0 | x :: l => x + sumQ l end.
Definition sumF {A} (f : A -> Q) (l : list A) : Q := sumQ (map f l).

Definition sumN (l : list nat) : nat := fold_right Nat.add 0%nat l.

Fixpoint map2 {A B C} (f : A -> B -> C) (l : list A) (m : list B) : list C :=
  match l, m with
  | a :: l, b :: m => f a b :: map2 f l m
  | _, _ => []
  end.

(** decidable comparisons on Q as booleans *)
Definition Qltb (a b : Q) : bool := negb (Qle_bool b a).
Definition Qeqb (a b : Q) : bool := Qeq_bool a b.

(** ------------------------------------------------------------------ *)
(** Lemmas *)

Lemma Qltb_lt a b : Qltb a b = true <-> a < b.
Proof.
  unfold Qltb. rewrite negb_true_iff. split; intros H.
  - apply Qnot_le_lt. intros L. apply Qle_bool_iff in L. congruence.
  - destruct (Qle_bool b a) eqn:E; [|reflexivity]. apply Qle_bool_iff in E. lra.
Qed.
Lemma Qltb_ge a b : Qltb a b = false <-> b <= a.
Proof.
  unfold Qltb. rewrite negb_false_iff. apply Qle_bool_iff.
Qed.
Lemma Qleb_le a b : Qle_bool a b = true <-> a <= b.
Proof. apply Qle_bool_iff. Qed.
Lemma Qleb_gt a b : Qle_bool a b = false <-> b < a.
Proof.
  split; intros H.
  - apply Qnot_le_lt. intros L. apply Qle_bool_iff in L. congruence.
  - destruct (Qle_bool a b) eqn:E; [|reflexivity]. apply Qle_bool_iff in E. lra.
Qed.
Lemma Qeqb_eq a b : Qeqb a b = true <-> a == b.
Proof. apply Qeq_bool_iff. Qed.
Lemma Qeqb_neq a b : Qeqb a b = false <-> ~ a == b.
Proof.
  unfold Qeqb. split; intros H.
  - now apply Qeq_bool_neq.
  - destruct (Qeq_bool a b) eqn:E; [|reflexivity]. apply Qeq_bool_iff in E. tauto.
Qed.

Lemma Qltb_spec a b : BoolSpec (a < b) (b <= a) (Qltb a b).
Proof. destruct (Qltb a b) eqn:E; constructor; [now apply Qltb_lt | now apply Qltb_ge]. Qed.
Lemma Qleb_spec a b : BoolSpec (a <= b) (b < a) (Qle_bool a b).
Proof. destruct (Qle_bool a b) eqn:E; constructor; [now apply Qleb_le | now apply Qleb_gt]. Qed.
Lemma Qeqb_spec a b : BoolSpec (a == b) (~ a == b) (Qeqb a b).
Proof. destruct (Qeqb a b) eqn:E; constructor; [now apply Qeqb_eq | now apply Qeqb_neq]. Qed.

(** sums *)
Lemma sumQ_app l m : sumQ (l ++ m) == sumQ l + sumQ m.
Proof. induction l as [|a l IH]; cbn; [lra|]. rewrite IH. lra. Qed.

Lemma sumF_app {A} (f : A -> Q) l m : sumF f (l ++ m) == sumF f l + sumF f m.
Proof. unfold sumF. now rewrite map_app, sumQ_app. Qed.

Lemma sumF_cons {A} (f : A -> Q) a l : sumF f (a :: l) = f a + sumF f l.
Proof. reflexivity. Qed.

Lemma sumF_ext {A} (f g : A -> Q) l : (forall a, In a l -> f a == g a) -> sumF f l == sumF g l.
Proof.
  induction l as [|a l IH]; intros H; [reflexivity|]. rewrite !sumF_cons.
  rewrite (H a) by now left. rewrite IH; [reflexivity|]. intros; apply H; now right.
Qed.

Lemma sumF_perm {A} (f : A -> Q) l m : Permutation l m -> sumF f l == sumF f m.
Proof. induction 1; rewrite ?sumF_cons; try lra. Qed.

Lemma sumF_plus {A} (f g : A -> Q) l : sumF (fun a => f a + g a) l == sumF f l + sumF g l.
Proof. induction l as [|a l IH]; [reflexivity|]. rewrite !sumF_cons, IH. lra. Qed.

Lemma sumF_scale {A} (f : A -> Q) k l : sumF (fun a => k * f a) l == k * sumF f l.
Proof. induction l as [|a l IH]; [unfold sumF; cbn; lra|]. rewrite !sumF_cons, IH. lra. Qed.

Lemma sumF_scale_r {A} (f : A -> Q) k l : sumF (fun a => f a * k) l == sumF f l * k.
Proof. induction l as [|a l IH]; [unfold sumF; cbn; lra|]. rewrite !sumF_cons, IH. lra. Qed.

Lemma sumF_zero {A} (f : A -> Q) l : (forall a, In a l -> f a == 0) -> sumF f l == 0.
Proof.
  induction l as [|a l IH]; intros H; [reflexivity|]. rewrite sumF_cons, (H a) by now left.
  rewrite IH; [lra|]. intros; apply H; now right.
Qed.

Lemma sumF_nonneg {A} (f : A -> Q) l : (forall a, In a l -> 0 <= f a) -> 0 <= sumF f l.
Proof.
  induction l as [|a l IH]; intros H; [unfold sumF; cbn; lra|]. rewrite sumF_cons.
  pose proof (H a (or_introl eq_refl)). assert (0 <= sumF f l) by (apply IH; intros; apply H; now right). lra.
Qed.

Lemma sumF_le {A} (f g : A -> Q) l : (forall a, In a l -> f a <= g a) -> sumF f l <= sumF g l.
Proof.
  induction l as [|a l IH]; intros H; [unfold sumF; cbn; lra|]. rewrite !sumF_cons.
  pose proof (H a (or_introl eq_refl)). assert (sumF f l <= sumF g l) by (apply IH; intros; apply H; now right). lra.
Qed.

Lemma sumF_map {A B} (f : B -> Q) (g : A -> B) l : sumF f (map g l) = sumF (fun a => f (g a)) l.
Proof. unfold sumF. now rewrite map_map. Qed.

Lemma sumF_concat {A} (f : A -> Q) ll : sumF f (concat ll) == sumF (sumF f) ll.
Proof. induction ll as [|l ll IH]; [reflexivity|]. cbn [concat]. rewrite sumF_app, IH. reflexivity. Qed.

Lemma sumF_flat_map {A B} (f : B -> Q) (g : A -> list B) l :
  sumF f (flat_map g l) == sumF (fun a => sumF f (g a)) l.
Proof. induction l as [|a l IH]; [reflexivity|]. cbn [flat_map]. rewrite sumF_app, IH. reflexivity. Qed.

Lemma sumF_filter {A} (f : A -> Q) p l :
  sumF f l == sumF f (filter p l) + sumF f (filter (fun a => negb (p a)) l).
Proof.
  induction l as [|a l IH]; [reflexivity|]. rewrite sumF_cons, IH. cbn [filter].
  destruct (p a); cbn [negb]; rewrite sumF_cons; lra.
Qed.

Lemma sumF_filter_if {A} (f : A -> Q) p l :
  sumF f (filter p l) == sumF (fun a => if p a then f a else 0) l.
Proof.
  induction l as [|a l IH]; [reflexivity|]. cbn [filter]. rewrite sumF_cons.
  destruct (p a); rewrite ?sumF_cons, IH; lra.
Qed.

Lemma sumF_swap {A B} (f : A -> B -> Q) l m :
  sumF (fun a => sumF (f a) m) l == sumF (fun b => sumF (fun a => f a b) l) m.
Proof.
  induction l as [|a l IH].
  - symmetry. apply sumF_zero. reflexivity.
  - rewrite sumF_cons, IH. rewrite <- sumF_plus. apply sumF_ext. intros. reflexivity.
Qed.

Lemma sumF_pos_exists {A} (f : A -> Q) l : 0 < sumF f l -> exists a, In a l /\ 0 < f a.
Proof.
  induction l as [|a l IH]; [unfold sumF; cbn; lra|]. rewrite sumF_cons. intros H.
  destruct (Qlt_le_dec 0 (f a)); [exists a; split; [now left|assumption]|].
  destruct IH as (b & Hb & Hp); [lra|]. exists b. split; [now right|assumption].
Qed.

Lemma sumF_ge_one {A} (f : A -> Q) l a : (forall b, In b l -> 0 <= f b) -> In a l -> f a <= sumF f l.
Proof.
  induction l as [|b l IH]; intros H Ha; [easy|]. rewrite sumF_cons.
  pose proof (H b (or_introl eq_refl)).
  destruct Ha as [->|Ha].
  - assert (0 <= sumF f l) by (apply sumF_nonneg; intros; apply H; now right). lra.
  - assert (f a <= sumF f l) by (apply IH; [intros; apply H; now right|assumption]). lra.
Qed.

Lemma sumQ_sumF l : sumQ l = sumF (fun x => x) l.
Proof. unfold sumF. now rewrite map_id. Qed.

Lemma sumF_const {A} (k : Q) (l : list A) : sumF (fun _ => k) l == inject_Z (Z.of_nat (length l)) * k.
Proof.
  induction l as [|a l IH].
  - change (0 == 0 * k). lra.
  - rewrite sumF_cons, IH. cbn [length].
    rewrite Nat2Z.inj_succ. unfold Z.succ. rewrite inject_Z_plus. change (inject_Z 1) with 1. lra.
Qed.

Lemma sumF_nth {A} (f : A -> Q) d l : sumF f l = sumF (fun i => f (nth i l d)) (seq 0 (length l)).
Proof.
  induction l as [|a l IH]; [reflexivity|]. cbn [length seq]. rewrite !sumF_cons. cbn [nth].
  rewrite IH. rewrite <- seq_shift, sumF_map. reflexivity.
Qed.

(** slices *)
Lemma length_slice {A} a b (l : list A) : length (slice a b l) = (Nat.min b (length l) - a)%nat.
Proof. unfold slice. rewrite firstn_length, skipn_length. lia. Qed.

Lemma skipn_skipn' {A} a b (l : list A) : skipn a (skipn b l) = skipn (b + a) l.
Proof. revert l; induction b as [|b IH]; intros [|x l]; cbn; auto. now rewrite skipn_nil. Qed.

Lemma slice_cat {A} a b c (l : list A) : (a <= b -> b <= c -> slice a b l ++ slice b c l = slice a c l)%nat.
Proof.
  intros H1 H2. unfold slice. replace (skipn b l) with (skipn (b - a) (skipn a l)).
  - rewrite <- (firstn_skipn (b - a) (skipn a l)) at 3.
    rewrite firstn_app, firstn_firstn. replace (Nat.min (c - a) (b - a)) with (b - a)%nat by lia.
    f_equal. rewrite firstn_length. destruct (le_lt_dec (b - a) (length (skipn a l))).
    + f_equal. lia.
    + rewrite !(skipn_all2 (skipn a l)) by lia. now rewrite !firstn_nil.
  - rewrite skipn_skipn'. f_equal. lia.
Qed.

Lemma slice_all {A} n (l : list A) : (length l <= n)%nat -> slice 0 n l = l.
Proof. intros. unfold slice. cbn [skipn]. apply firstn_all2. lia. Qed.

Lemma nth_error_firstn' {A} n i (l : list A) :
  nth_error (firstn n l) i = if (i <? n)%nat then nth_error l i else None.
Proof.
  revert i l; induction n as [|n IH]; intros i l; [now destruct i|].
  destruct l as [|x l]; [destruct i as [|i]; cbn -[Nat.ltb]; now destruct (_ <? S n)%nat|].
  destruct i as [|i]; [reflexivity|]. cbn [firstn nth_error]. rewrite IH. reflexivity.
Qed.
Lemma nth_error_skipn' {A} n i (l : list A) : nth_error (skipn n l) i = nth_error l (n + i).
Proof. revert l; induction n as [|n IH]; intros [|x l]; cbn; auto. now destruct i. Qed.

Lemma nth_error_slice {A} a b i (l : list A) :
  nth_error (slice a b l) i = if (i <? b - a)%nat then nth_error l (a + i) else None.
Proof. unfold slice. now rewrite nth_error_firstn', nth_error_skipn'. Qed.

Lemma Forall2_len {A B} (R : A -> B -> Prop) l m : Forall2 R l m -> length l = length m.
Proof. induction 1; cbn; congruence. Qed.

Lemma Qsq_nonneg (x : Q) : 0 <= x * x.
Proof. nra. Qed.
