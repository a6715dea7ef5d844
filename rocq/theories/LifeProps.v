(** C125: the seeds and the parameters of the fits of the lifetime *)
From Coq Require Import Reals.
From Verif Require Import Base LifeSpec LifeModel LifeProofs.
From Coq Require Import Lra.
Local Open Scope R_scope.

(** From energies that decay exactly, at times that are not all the same, the exponential seed has the energy of the first time, and the
    lifetime longer by the factor of the last time to the span *)
Theorem C125_decay : forall x e0 lt m M, 0 < e0 -> lt <> 0 -> smallest x m -> greatest x M -> m < M ->
  exists l, expo_seed x (map (decay e0 lt) x) = Ok (decay e0 lt m, Finite l) /\ l * (M - m) = lt * M.
Proof.
  intros x e0 lt m M E L Hm HM D. rewrite (seed_of _ _ _ _ (earliest_map (decay e0 lt) x m Hm) (latest_map (decay e0 lt) x M HM)). cbn [fst snd].
  pose proof (decay_pos e0 lt m E). pose proof (decay_pos e0 lt M E). destruct (Rle_dec (decay e0 lt m) 0); [lra|]. destruct (Rle_dec (decay e0 lt M) 0); [lra|].
  rewrite decay_ratio by exact E. unfold divide. destruct (Req_EM_T (m / lt - M / lt) 0) as [N|N].
  - exfalso. assert ((m / lt - M / lt) * lt = m - M) by (field; exact L). rewrite N in H1. lra.
  - eexists. split; [reflexivity|]. field. split; [exact L|]. lra.
Qed.
Print Assumptions C125_decay.

(** If the first time is zero the seed is the energy and the lifetime of the decay *)
Theorem C125_exact : forall x e0 lt M, 0 < e0 -> lt <> 0 -> smallest x 0 -> greatest x M -> 0 < M -> expo_seed x (map (decay e0 lt) x) = Ok (e0, Finite lt).
Proof.
  intros x e0 lt M E L Hm HM D. destruct (C125_decay x e0 lt 0 M E L Hm HM D) as (l & S & Q). rewrite S. assert (l = lt) by (apply Rmult_eq_reg_r with M; lra). subst l.
  unfold decay. replace (- (0 / lt)) with 0 by (field; exact L). rewrite exp_0. do 2 f_equal. lra.
Qed.
Print Assumptions C125_exact.

(** Otherwise it is not: with the first time at one, the lifetime is twice that of the decay *)
Theorem C125_exact_refuted : ~ forall x e0 lt m M, 0 < e0 -> lt <> 0 -> smallest x m -> greatest x M -> m < M -> exists e, expo_seed x (map (decay e0 lt) x) = Ok (e, Finite lt).
Proof.
  intros F. assert (A : smallest [1; 2] 1) by (split; [left; reflexivity|intros v [<-|[<-|[]]]; lra]). assert (B : greatest [1; 2] 2) by (split; [right; left; reflexivity|intros v [<-|[<-|[]]]; lra]).
  destruct (F [1; 2] 1 1 1 2) as (e & E); try lra; try assumption. destruct (C125_decay [1; 2] 1 1 1 2) as (l & E' & Q); try lra; try assumption. rewrite E' in E. injection E as _ ->. lra.
Qed.
Print Assumptions C125_exact_refuted.

(** For any data: the seed starts from the energy of the earliest and, unless the latest is at time zero, passes through the latest; with the
    same energies there is no finite lifetime *)
Theorem C125_through : forall x y p q, earliest (combine x y) p -> latest (combine x y) q -> 0 < snd p -> 0 < snd q ->
  exists lt, expo_seed x y = Ok (snd p, lt) /\ match lt with Finite l => snd p <> snd q /\ (fst q <> 0 -> l <> 0 /\ decay (snd p) l (fst q) = snd q) | _ => snd p = snd q end.
Proof.
  intros x y p q P Q p0 q0. rewrite (seed_of _ _ _ _ P Q). destruct (Rle_dec (snd p) 0); [lra|]. destruct (Rle_dec (snd q) 0); [lra|]. eexists. split; [reflexivity|].
  assert (Hr : 0 < snd q / snd p) by (apply Rdiv_lt_0_compat; assumption).
  unfold divide. destruct (Req_EM_T (ln (snd q / snd p)) 0) as [Z|Z].
  - assert (E : snd p = snd q). { assert (R : snd q / snd p = 1) by (apply ln_inv; [exact Hr|lra|rewrite Z; symmetry; apply ln_1]). apply (f_equal (fun r => r * snd p)) in R. unfold Rdiv in R. rewrite Rmult_assoc, Rinv_l in R by lra. lra. }
    destruct (Rlt_dec 0 (- fst q)); [exact E|]. destruct (Rlt_dec (- fst q) 0); exact E.
  - split.
    + intros E. apply Z. rewrite E. replace (snd q / snd q) with 1 by (field; lra). apply ln_1.
    + intros N. assert (L : - fst q / ln (snd q / snd p) <> 0). { intros E. apply (f_equal (fun r => r * ln (snd q / snd p))) in E. unfold Rdiv in E at 1. rewrite Rmult_assoc, Rinv_l in E by exact Z. lra. }
      split; [exact L|]. unfold decay. replace (- (fst q / (- fst q / ln (snd q / snd p)))) with (ln (snd q / snd p)) by (field; split; [split; [exact Z|lra]|lra] || (field; repeat split; try assumption; lra)).
      rewrite exp_ln by exact Hr. field. lra.
Qed.
Print Assumptions C125_through.

(** It fails, with a ValueError, exactly without data or if the earliest or the latest energy is not positive *)
Theorem C125_fails : forall x y e, expo_seed x y = Err e <-> e = ValueError /\ (combine x y = [] \/ exists p, (earliest (combine x y) p \/ latest (combine x y) p) /\ snd p <= 0).
Proof.
  intros x y e. destruct (combine x y) as [|a d] eqn:C.
  - unfold expo_seed. rewrite C. cbn. split; [intros H; injection H as <-; auto|intros [-> _]; reflexivity].
  - destruct (ends (combine x y)) as (p & l & _ & P & Q); [congruence|]. rewrite (seed_of _ _ _ _ P Q). rewrite <- C.
    destruct (Rle_dec (snd p) 0) as [p0|p0]; [split; [intros H; injection H as <-; split; [reflexivity|right; exists p; auto]|intros [-> _]; reflexivity]|].
    destruct (Rle_dec (snd (last l p)) 0) as [q0|q0]; [split; [intros H; injection H as <-; split; [reflexivity|right; exists (last l p); auto]|intros [-> _]; reflexivity]|].
    split; [discriminate|]. intros [_ [H|(r & [R|R] & N)]]; [congruence| |]; [pose proof (earliest_unique _ _ _ P R)|pose proof (latest_unique _ _ _ Q R)]; subst; contradiction.
Qed.
Print Assumptions C125_fails.

(** The order of the data does not matter *)
Theorem C125_order : forall x y x' y', Permutation (combine x y) (combine x' y') -> expo_seed x y = expo_seed x' y'.
Proof.
  intros x y x' y' P. destruct (combine x y) as [|a d] eqn:C.
  - apply Permutation_nil in P. unfold expo_seed. rewrite C, P. reflexivity.
  - rewrite <- C in P. destruct (ends (combine x y)) as (p & l & _ & A & B); [congruence|]. rewrite (seed_of _ _ _ _ A B). symmetry. apply seed_of; split.
    + apply (Permutation_in _ P), A.
    + intros q Q. apply A, (Permutation_in _ (Permutation_sym P)), Q.
    + apply (Permutation_in _ P), B.
    + intros q Q. apply B, (Permutation_in _ (Permutation_sym P)), Q.
Qed.
Print Assumptions C125_order.

(** The two ways to fit a decay start from it: the function with its seed gives each value to fit. For the logarithms the first time may be
    any, and the energy and lifetime after the change of parameters are those of the decay *)
Theorem C125_start : forall x e0 lt M, 0 < e0 -> 0 < lt -> smallest x 0 -> greatest x M -> 0 < M -> forall t, t = expo_fit \/ t = log_lin_fit ->
  exists ys a b, select_fit_variables t x (map (decay e0 lt) x) = Ok (x, ys) /\ snd (get_function_and_seed_lt t) x ys = Ok (a, Finite b) /\ ys = map (fun u => fst (get_function_and_seed_lt t) u a b) x.
Proof.
  intros x e0 lt M E L Hm HM D t [->| ->]; cbn [select_fit_variables get_function_and_seed_lt fst snd].
  - do 3 eexists. split; [reflexivity|]. split; [apply (C125_exact x e0 lt M); try assumption; lra|]. apply map_ext. intros u. unfold expo, decay. f_equal. f_equal. field. lra.
  - assert (P : forallb (fun s => if Rlt_dec 0 s then true else false) (map (decay e0 lt) x) = true). { apply forallb_forall. intros s S. apply in_map_iff in S. destruct S as (u & <- & _). destruct (Rlt_dec 0 (decay e0 lt u)) as [|N]; [reflexivity|]. exfalso. apply N, decay_pos, E. }
    rewrite P. rewrite map_map. assert (V : map (fun u => - ln (decay e0 lt u)) x = map (fun u => - ln e0 + / lt * u) x) by (apply map_ext; intros u; rewrite ln_decay by exact E; unfold Rdiv; lra).
    destruct (lin_seed_line x (- ln e0) (/ lt) 0 M) as (a & b & S & -> & ->); try assumption; [left; apply Rinv_0_lt_compat, L|].
    do 3 eexists. split; [reflexivity|]. rewrite V. split; [exact S|]. apply map_ext. intros u. reflexivity.
Qed.
Print Assumptions C125_start.
Theorem C125_log_lin : forall x e0 lt m M, 0 < e0 -> 0 < lt -> smallest x m -> greatest x M -> m < M -> forall ua ub c,
  exists ys a b err cov, select_fit_variables log_lin_fit x (map (decay e0 lt) x) = Ok (x, ys) /\ lin_seed x ys = Ok (a, Finite b) /\ transform_parameters a b ua ub c = Ok ((e0, lt), err, cov).
Proof.
  intros x e0 lt m M E L Hm HM D ua ub c. cbn [select_fit_variables].
  assert (P : forallb (fun s => if Rlt_dec 0 s then true else false) (map (decay e0 lt) x) = true). { apply forallb_forall. intros s S. apply in_map_iff in S. destruct S as (u & <- & _). destruct (Rlt_dec 0 (decay e0 lt u)) as [|N]; [reflexivity|]. exfalso. apply N, decay_pos, E. }
  rewrite P. rewrite map_map. assert (V : map (fun u => - ln (decay e0 lt u)) x = map (fun u => - ln e0 + / lt * u) x) by (apply map_ext; intros u; rewrite ln_decay by exact E; unfold Rdiv; lra).
  pose proof (Rinv_0_lt_compat _ L) as I. destruct (lin_seed_line x (- ln e0) (/ lt) m M) as (a & b & S & -> & ->); try assumption; [left; exact I|].
  do 5 eexists. split; [reflexivity|]. rewrite V. split; [exact S|]. unfold transform_parameters. destruct (Req_EM_T (/ lt) 0) as [Z|_]; [rewrite Z in I; exfalso; exact (Rlt_irrefl 0 I)|]. rewrite Ropp_involutive, exp_ln by exact E. replace (1 / / lt) with lt by (field; lra). reflexivity.
Qed.
Print Assumptions C125_log_lin.

(** The parameters after the change describe the same curve, and the errors and the covariance are those of the fit multiplied by the
    derivatives of the energy and the lifetime with respect to the parameters *)
Theorem C125_curve : forall a b ua ub c E0 lt err cov, transform_parameters a b ua ub c = Ok ((E0, lt), err, cov) -> forall t, - ln (decay E0 lt t) = a + b * t.
Proof.
  intros a b ua ub c E0 lt err cov H t. unfold transform_parameters in H. destruct (Req_EM_T b 0) as [|N]; [discriminate|]. injection H as <- <- _ _. rewrite ln_decay by apply exp_pos. rewrite ln_exp. field. exact N.
Qed.
Print Assumptions C125_curve.
Theorem C125_errors : forall a b ua ub c E0 lt sE sl cov, transform_parameters a b ua ub c = Ok ((E0, lt), (sE, sl), cov) ->
  exists dE dl, derivable_pt_lim (fun a => exp (- a)) a dE /\ derivable_pt_lim (fun b => 1 / b) b dl /\ E0 = exp (- a) /\ lt = 1 / b /\ sE = Rabs dE * Rabs ua /\ sl = Rabs dl * Rabs ub /\ cov = dE * dl * c.
Proof.
  intros a b ua ub c E0 lt sE sl cov H. unfold transform_parameters in H. destruct (Req_EM_T b 0) as [|N]; [discriminate|]. injection H as <- <- <- <- <-.
  exists (exp (- a) * (-1)), ((0 * b - 1 * 1) / Rsqr b). split; [|split].
  - apply (derivable_pt_lim_comp (fun a => - a) exp a (-1) (exp (- a))); [|apply derivable_pt_lim_exp]. apply (derivable_pt_lim_opp id a 1). apply derivable_pt_lim_id.
  - apply (derivable_pt_lim_div (fun _ => 1) id b 0 1); [apply derivable_pt_lim_const|apply derivable_pt_lim_id|exact N].
  - split; [reflexivity|]. split; [reflexivity|]. split; [|split].
    + rewrite !Rabs_mult. rewrite (Rabs_left (-1)) by lra. lra.
    + rewrite <- Rabs_mult. rewrite <- Rabs_Ropp. f_equal. unfold Rsqr. field. exact N.
    + unfold Rsqr. field. exact N.
Qed.
Print Assumptions C125_errors.

(** For a linear fit of energies that fall in a line the seed does not have its slope (the lines that rise are in C119) *)
Theorem C125_line_down_refuted : ~ forall x a b m M, smallest x m -> greatest x M -> m < M -> exists a', lin_seed x (map (fun t => a + b * t) x) = Ok (a', Finite b).
Proof.
  intros F. destruct (F [0; 1] 1 (-1) 0 1) as (a' & E); [split; [left; reflexivity|intros v [<-|[<-|[]]]; lra]|split; [right; left; reflexivity|intros v [<-|[<-|[]]]; lra]|lra|].
  unfold lin_seed in E. cbn [map] in E. unfold minimum, maximum in E. cbn [fold_left] in E.
  replace (Rmin 0 1) with 0 in E by (symmetry; apply Rmin_left; lra). replace (Rmax 0 1) with 1 in E by (symmetry; apply Rmax_right; lra).
  replace (Rmin (1 + -1 * 0) (1 + -1 * 1)) with 0 in E by (rewrite Rmin_right by lra; lra). replace (Rmax (1 + -1 * 0) (1 + -1 * 1)) with 1 in E by (rewrite Rmax_left by lra; lra).
  destruct (Req_EM_T 1 0) in E; [lra|]. injection E as _ E. lra.
Qed.
Print Assumptions C125_line_down_refuted.

(** Three energies of a decay with energy 10 and lifetime 2, not in order: the hypotheses are met *)
Example C125_ex : smallest [1; 3; 0] 0 /\ greatest [1; 3; 0] 3 /\ expo_seed [1; 3; 0] (map (decay 10 2) [1; 3; 0]) = Ok (10, Finite 2) /\
  expo_seed [] [] = Err ValueError /\ expo_seed [2; 1] [5; 0] = Err ValueError.
Proof.
  assert (A : smallest [1; 3; 0] 0) by (split; [right; right; left; reflexivity|intros v [<-|[<-|[<-|[]]]]; lra]).
  assert (B : greatest [1; 3; 0] 3) by (split; [right; left; reflexivity|intros v [<-|[<-|[<-|[]]]]; lra]).
  split; [exact A|]. split; [exact B|]. split; [apply (C125_exact [1; 3; 0] 10 2 3); try assumption; lra|]. split; [reflexivity|].
  apply C125_fails. split; [reflexivity|]. right. exists (1, 0). split; [|cbn; lra]. left. split; [right; left; reflexivity|]. intros q [<-|[<-|[]]]; unfold not_after; cbn; lra.
Qed.
