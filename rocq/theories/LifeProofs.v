From Coq Require Import Reals.
From Verif Require Import Base LifeSpec LifeModel.
From Coq Require Import Lra.
Local Open Scope R_scope.

Lemma before_spec : forall p q, before p q = true <-> not_after p q.
Proof.
  intros p q. unfold before, not_after. destruct (Rlt_dec (fst p) (fst q)); [split; auto|]. destruct (Rlt_dec (fst q) (fst p)); [split; [discriminate|intros [A|[A _]]; lra]|].
  destruct (Rle_dec (snd p) (snd q)); split; intros A; try discriminate; [right; split; lra|reflexivity|destruct A as [A|[_ A]]; lra].
Qed.
Lemma total_order : forall p q, not_after p q \/ not_after q p.
Proof. intros p q. unfold not_after. destruct (Rtotal_order (fst p) (fst q)) as [A|[A|A]]; [left; left; lra| |right; left; lra]. destruct (Rle_dec (snd p) (snd q)); [left; right; lra|right; right; lra]. Qed.
Lemma before_false : forall p q, before p q = false -> not_after q p.
Proof. intros p q H. destruct (total_order p q) as [A|A]; [|exact A]. apply before_spec in A. congruence. Qed.
Lemma not_after_refl : forall p, not_after p p.
Proof. intros p. right. split; [reflexivity|apply Rle_refl]. Qed.
Lemma not_after_trans : forall p q r, not_after p q -> not_after q r -> not_after p r.
Proof. intros p q r [A|[A A']] [B|[B B']]; [left|left|left|right]; try split; lra. Qed.
Lemma not_after_eq : forall p q, not_after p q -> not_after q p -> p = q.
Proof. intros [a b] [c d] [A|[A A']] [B|[B B']]; cbn in *; try lra. f_equal; lra. Qed.

Lemma insert_perm : forall p l, Permutation (p :: l) (insert p l).
Proof. intros p. induction l as [|q l IH]; cbn; [apply Permutation_refl|]. destruct (before p q); [apply Permutation_refl|]. eapply perm_trans; [apply perm_swap|]. apply perm_skip, IH. Qed.
Lemma sorted_perm : forall l, Permutation l (sorted l).
Proof. induction l as [|p l IH]; cbn; [apply perm_nil|]. eapply perm_trans; [apply perm_skip, IH|]. apply insert_perm. Qed.
Lemma insert_sorted : forall p l, StronglySorted not_after l -> StronglySorted not_after (insert p l).
Proof.
  intros p. induction l as [|q l IH]; intros S; cbn; [repeat constructor|].
  inversion S as [|? ? S' F]; subst. destruct (before p q) eqn:B.
  - constructor; [exact S|]. apply before_spec in B. constructor; [exact B|]. eapply Forall_impl; [|exact F]. intros r. apply not_after_trans, B.
  - constructor; [apply IH, S'|]. apply before_false in B. apply Forall_forall. intros r R. apply (Permutation_in r (Permutation_sym (insert_perm p l))) in R. destruct R as [<-|R]; [exact B|]. rewrite Forall_forall in F. apply F, R.
Qed.
Lemma sorted_sorted : forall l, StronglySorted not_after (sorted l).
Proof. induction l as [|p l IH]; cbn; [constructor|apply insert_sorted, IH]. Qed.
Lemma last_in : forall {A} (l : list A) p, In (last l p) (p :: l).
Proof. intros A. induction l as [|q l IH]; intros p; [left; reflexivity|]. right. destruct l as [|r l]; [left; reflexivity|]. change (last (q :: r :: l) p) with (last (r :: l) p). specialize (IH q).
  assert (E : forall x y, last (r :: l) x = last (r :: l) y) by (clear; intros x y; revert r; induction l as [|s l IH]; intros r; [reflexivity|]; change (last (s :: l) x = last (s :: l) y); apply IH).
  rewrite (E p q). exact IH. Qed.
Lemma sorted_last : forall l p, StronglySorted not_after (p :: l) -> forall q, In q (p :: l) -> not_after q (last l p).
Proof.
  induction l as [|r l IH]; intros p S q Q; [destruct Q as [<-|[]]; apply not_after_refl|].
  inversion S as [|? ? S' F]; subst. assert (E : last (r :: l) p = last l r).
  { clear. revert r. induction l as [|s l IH]; intros r; [reflexivity|]. change (last (s :: l) p = last (s :: l) r). rewrite IH. symmetry. destruct l as [|t l]; [reflexivity|]. clear IH. change (last (t :: l) r = last (t :: l) s). revert t. induction l as [|u l IH]; intros t; [reflexivity|]. apply (IH u). }
  rewrite E. destruct Q as [<-|Q]; [|apply IH; assumption]. rewrite Forall_forall in F. apply F. apply last_in.
Qed.

(** the first and the last of the sorted data *)
Lemma ends : forall d, d <> [] -> exists p l, sorted d = p :: l /\ earliest d p /\ latest d (last l p).
Proof.
  intros d D. destruct (sorted d) as [|p l] eqn:E.
  - exfalso. apply D. apply Permutation_nil. rewrite <- E. apply Permutation_sym, sorted_perm.
  - exists p, l. split; [reflexivity|]. pose proof (sorted_sorted d) as S. rewrite E in S. pose proof (sorted_perm d) as P. rewrite E in P. split; split.
    + apply (Permutation_in p (Permutation_sym P)). left; reflexivity.
    + intros q Q. apply (Permutation_in q P) in Q. destruct Q as [<-|Q]; [apply not_after_refl|]. inversion S as [|? ? _ F]; subst. rewrite Forall_forall in F. apply F, Q.
    + apply (Permutation_in _ (Permutation_sym P)). apply last_in.
    + intros q Q. apply (Permutation_in q P) in Q. apply sorted_last; assumption.
Qed.
Lemma earliest_unique : forall d p q, earliest d p -> earliest d q -> p = q.
Proof. intros d p q [A B] [C D]. apply not_after_eq; auto. Qed.
Lemma latest_unique : forall d p q, latest d p -> latest d q -> p = q.
Proof. intros d p q [A B] [C D]. apply not_after_eq; auto. Qed.

Lemma ends_of : forall d p q, earliest d p -> latest d q -> exists l, sorted d = p :: l /\ last l p = q.
Proof.
  intros d p q P Q. destruct (ends d) as (p' & l & E & P' & Q'); [intros ->; destruct P as [[] _]|].
  pose proof (earliest_unique _ _ _ P P') as <-. exists l. split; [exact E|]. apply (latest_unique d); assumption.
Qed.

(** the seed from the first and last of the data *)
Lemma seed_of : forall x y p q, earliest (combine x y) p -> latest (combine x y) q ->
  expo_seed x y = if Rle_dec (snd p) 0 then Err ValueError else if Rle_dec (snd q) 0 then Err ValueError else Ok (snd p, divide (- fst q) (ln (snd q / snd p))).
Proof. intros x y p q P Q. destruct (ends_of _ _ _ P Q) as (l & E & L). unfold expo_seed. rewrite E, L. reflexivity. Qed.

Lemma minimum_spec : forall l a, smallest (a :: l) (minimum a l).
Proof.
  unfold minimum, smallest. induction l as [|b l IH]; intros a; cbn [fold_left]; [split; [left; reflexivity|intros v [<-|[]]; lra]|].
  destruct (IH (Rmin a b)) as [I L]. pose proof (L _ (or_introl eq_refl)) as M. pose proof (Rmin_l a b). pose proof (Rmin_r a b). split.
  - destruct I as [I|I]; [|right; right; exact I]. rewrite <- I. unfold Rmin. destruct (Rle_dec a b); [left|right; left]; reflexivity.
  - intros v [<-|[<-|V]]; [lra|lra|]. apply L. right; exact V.
Qed.
Lemma maximum_spec : forall l a, greatest (a :: l) (maximum a l).
Proof.
  unfold maximum, greatest. induction l as [|b l IH]; intros a; cbn [fold_left]; [split; [left; reflexivity|intros v [<-|[]]; lra]|].
  destruct (IH (Rmax a b)) as [I L]. pose proof (L _ (or_introl eq_refl)) as M. pose proof (Rmax_l a b). pose proof (Rmax_r a b). split.
  - destruct I as [I|I]; [|right; right; exact I]. rewrite <- I. unfold Rmax. destruct (Rle_dec a b); [right; left|left]; reflexivity.
  - intros v [<-|[<-|V]]; [lra|lra|]. apply L. right; exact V.
Qed.
Lemma smallest_unique : forall l a b, smallest l a -> smallest l b -> a = b.
Proof. intros l a b [A A'] [B B']. specialize (A' _ B). specialize (B' _ A). lra. Qed.
Lemma greatest_unique : forall l a b, greatest l a -> greatest l b -> a = b.
Proof. intros l a b [A A'] [B B']. specialize (A' _ B). specialize (B' _ A). lra. Qed.

(** the seed of a rising line is the line *)
Lemma lin_seed_line : forall x a b m M, 0 <= b -> smallest x m -> greatest x M -> m < M -> exists a' b', lin_seed x (map (fun t => a + b * t) x) = Ok (a', Finite b') /\ a' = a /\ b' = b.
Proof.
  intros [|t x] a b m M B Hm HM L; [destruct Hm as [[] _]|]. unfold lin_seed. cbn [map].
  pose proof (smallest_unique _ _ _ Hm (minimum_spec x t)) as <-. pose proof (greatest_unique _ _ _ HM (maximum_spec x t)) as <-.
  assert (E0 : minimum (a + b * t) (map (fun t => a + b * t) x) = a + b * m).
  { eapply smallest_unique; [apply minimum_spec|]. change (a + b * t :: map (fun t => a + b * t) x) with (map (fun t => a + b * t) (t :: x)). destruct Hm as [I Lm]. split; [apply (in_map (fun t => a + b * t)), I|].
    intros v V. apply in_map_iff in V. destruct V as (u & <- & U). specialize (Lm _ U). nra. }
  assert (E1 : maximum (a + b * t) (map (fun t => a + b * t) x) = a + b * M).
  { eapply greatest_unique; [apply maximum_spec|]. change (a + b * t :: map (fun t => a + b * t) x) with (map (fun t => a + b * t) (t :: x)). destruct HM as [I Lm]. split; [apply (in_map (fun t => a + b * t)), I|].
    intros v V. apply in_map_iff in V. destruct V as (u & <- & U). specialize (Lm _ U). nra. }
  rewrite E0, E1. destruct (Req_EM_T M m); [lra|]. do 2 eexists. split; [reflexivity|]. assert (S : (a + b * M - (a + b * m)) / (M - m) = b) by (field; lra). rewrite S. split; lra.
Qed.

Lemma decay_pos : forall e0 lt t, 0 < e0 -> 0 < decay e0 lt t.
Proof. intros. apply Rmult_lt_0_compat; [assumption|apply exp_pos]. Qed.
Lemma decay_ratio : forall e0 lt t u, 0 < e0 -> ln (decay e0 lt u / decay e0 lt t) = t / lt - u / lt.
Proof.
  intros e0 lt t u E. unfold decay. replace (e0 * exp (- (u / lt)) / (e0 * exp (- (t / lt)))) with (exp (t / lt - u / lt)); [apply ln_exp|].
  unfold Rminus. rewrite exp_plus. rewrite (exp_Ropp (t / lt)). field. pose proof (exp_pos (t / lt)). split; lra.
Qed.
Lemma ln_decay : forall e0 lt t, 0 < e0 -> - ln (decay e0 lt t) = - ln e0 + t / lt.
Proof. intros e0 lt t E. unfold decay. rewrite ln_mult by (assumption || apply exp_pos). rewrite ln_exp. lra. Qed.
Lemma in_combine_map : forall (f : R -> R) l p, In p (combine l (map f l)) <-> In (fst p) l /\ snd p = f (fst p).
Proof.
  intros f. induction l as [|a l IH]; intros [u v]; cbn; [tauto|]. rewrite IH. cbn. split.
  - intros [E|[A B]]; [injection E as <- <-; auto|auto].
  - intros [[<-|A] ->]; auto.
Qed.
Lemma earliest_map : forall (f : R -> R) l m, smallest l m -> earliest (combine l (map f l)) (m, f m).
Proof.
  intros f l m [I L]. split; [apply in_combine_map; cbn; auto|]. intros [u v] Q. apply in_combine_map in Q. cbn in Q. destruct Q as [U ->]. specialize (L _ U). unfold not_after. cbn.
  destruct (Req_EM_T m u) as [->|N]; [right; split; lra|left; lra].
Qed.
Lemma latest_map : forall (f : R -> R) l m, greatest l m -> latest (combine l (map f l)) (m, f m).
Proof.
  intros f l m [I L]. split; [apply in_combine_map; cbn; auto|]. intros [u v] Q. apply in_combine_map in Q. cbn in Q. destruct Q as [U ->]. specialize (L _ U). unfold not_after. cbn.
  destruct (Req_EM_T m u) as [->|N]; [right; split; lra|left; lra].
Qed.
