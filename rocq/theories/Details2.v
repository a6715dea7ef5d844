(** Exact values: additions to C28, C82, C83 and C90 *)
From Verif Require Import SpeModel BuffersModel.
From Verif Require DinModel KmapModel.
From Verif Require Import Base Arrays PeaksModel PeaksProofs WfmModel WfmSpec WfmProps CorrSpec CorrProps.
Local Open Scope Q_scope.
Notation len := List.length.

(** C28: the first selection of SiPMs: those with a charge at least [nsigma] standard deviations over the median of the charges *)
Definition charge (w : list Q) : Q := sumQ w.
Definition has_variance (l : list Q) (v : Q) : Prop := exists m, is_mean l m /\ v * qn (len l) == sumF (fun x => (x - m) * (x - m)) l.
Theorem C28_first wfs nsigma : wfs <> [] -> exists med var, is_median (map charge wfs) med /\ has_variance (map charge wfs) var /\ len (median_std_method wfs nsigma) = len wfs /\
  (forall i w, nth_error wfs i = Some w -> (0 <= nsigma -> sel (median_std_method wfs nsigma) i <-> med <= charge w /\ nsigma * nsigma * var <= (charge w - med) * (charge w - med)) /\
     (nsigma < 0 -> sel (median_std_method wfs nsigma) i <-> med <= charge w \/ (charge w - med) * (charge w - med) <= nsigma * nsigma * var) /\
     forall sigma, 0 <= sigma -> sigma * sigma == var -> sel (median_std_method wfs nsigma) i <-> med + nsigma * sigma <= charge w).
Proof.
  intros N. assert (Nc : map charge wfs <> []) by (destruct wfs; [contradiction|discriminate]). exists (median (map charge wfs)), (variance (map charge wfs)). split; [now apply median_is|]. split.
  { exists (meanQ (map charge wfs)). split; [now apply mean_is|]. unfold variance at 1. set (l := map charge wfs) in *. set (m := meanQ l). clearbody m. unfold meanQ. rewrite map_length. assert (P : 0 < qn (len l)) by (destruct l; [contradiction|apply qn_pos; cbn; lia]). unfold qn in *.
    setoid_replace (sumQ (map (fun x => (x - m) * (x - m)) l)) with (sumF (fun x => (x - m) * (x - m)) l) by (clear; induction l as [|a l IH]; [reflexivity|]; cbn [map]; rewrite sumF_cons, <- IH; reflexivity). field. lra. }
  split; [unfold median_std_method; now rewrite !map_length|]. intros i w Hi.
  assert (E : sel (median_std_method wfs nsigma) i <-> above_sigma (charge w) (median (map charge wfs)) nsigma (variance (map charge wfs)) = true).
  { unfold sel, median_std_method. change (fun l : list Q => sumQ l) with charge. fold charge. set (f := fun c => above_sigma c _ _ _). rewrite map_map.
    assert (Hl : (i < len wfs)%nat) by (apply nth_error_Some; congruence). rewrite (nth_indep _ false (f (charge []))) by (now rewrite map_length). rewrite (map_nth (fun x => f (charge x))). rewrite (nth_error_nth _ _ [] Hi). reflexivity. }
  set (med := median (map charge wfs)) in *. set (v := variance (map charge wfs)) in *. clearbody med v. set (b := sel _ i) in *. clearbody b. unfold above_sigma in E.
  split; [|split].
  - intros H. rewrite E. rewrite (proj2 (Qle_bool_iff 0 nsigma) H). rewrite andb_true_iff, !Qle_bool_iff. split; intros [A B]; (split; [lra|exact B]).
  - intros H. rewrite E. destruct (Qle_bool 0 nsigma) eqn:K; [apply Qle_bool_iff in K; lra|]. rewrite orb_true_iff, !Qle_bool_iff. split; (intros [A|B]; [left; lra|right; exact B]).
  - intros s S0 S2. rewrite E. set (d := charge w - med). setoid_replace (med + nsigma * s <= charge w) with (nsigma * s <= d) by (unfold d; split; intros; lra). clearbody d. clear E Hi.
    assert (Eq : nsigma * nsigma * v == (nsigma * s) * (nsigma * s)) by (rewrite <- S2; ring). destruct (Qle_bool 0 nsigma) eqn:K.
    + apply Qle_bool_iff in K. rewrite andb_true_iff, !Qle_bool_iff, Eq. assert (P : 0 <= nsigma * s) by nra. generalize dependent (nsigma * s). intros q _ P. split; [intros [A B]; nra|intros A; split; nra].
    + assert (K' : nsigma < 0) by (apply Qnot_le_lt; intros C; apply Qle_bool_iff in C; congruence). rewrite orb_true_iff, !Qle_bool_iff, Eq. assert (P : nsigma * s <= 0) by nra. generalize dependent (nsigma * s). intros q _ P. split; [intros [A|B]; nra|]. intros A. destruct (Qlt_le_dec d 0) as [L|L]; [right; nra|left; exact L].
Qed.
Print Assumptions C28_first.
Example C28_first_ex : median_std_method [[1; 0]; [2; 2]; [0]; [1]; [10; 4]] 1 = [false; false; false; false; true] /\ median_std_method [[1; 0]; [2; 2]; [0]; [1]; [10; 4]] (- (1 # 10)) = [true; true; false; true; true] /\
  exists sigma, 0 <= sigma /\ sigma * sigma == variance [0; 2; 0; 2].
Proof. split; [vm_compute; reflexivity|]. split; [vm_compute; reflexivity|]. exists 1. split; [discriminate|reflexivity]. Qed.

(** C82: the ranges around the pedestal are [lim] errors wide, and the width is never allowed below 0.001 *)
Theorem C82_pedestal_seed mean sigma lim mean_err sigma_err : let p := pedestal_values mean sigma lim mean_err sigma_err in
  p_gain p = mean /\ p_sigma p = sigma /\ p_gain p - p_gain_min p == lim * mean_err /\ p_gain_max p - p_gain p == lim * mean_err /\ p_sigma_max p - p_sigma p == lim * sigma_err /\
  (1 # 1000 <= p_sigma p - lim * sigma_err -> p_sigma_min p == p_sigma p - lim * sigma_err) /\ (p_sigma p - lim * sigma_err <= 1 # 1000 -> p_sigma_min p == 1 # 1000).
Proof.
  cbn [pedestal_values p_gain p_sigma p_gain_min p_gain_max p_sigma_max p_sigma_min]. split; [reflexivity|]. split; [reflexivity|]. split; [ring|]. split; [ring|]. split; [ring|]. destruct (Qltb_spec (1 # 1000) (sigma - lim * sigma_err)); split; intros; lra.
Qed.
Print Assumptions C82_pedestal_seed.
Example C82_pedestal_seed_ex : p_sigma_min (pedestal_values 3 (1 # 2) 10 1 (1 # 10)) = 1 # 1000 /\ p_sigma_min (pedestal_values 3 2 10 1 (1 # 10)) == 1.
Proof. split; reflexivity. Qed.

(** C83: the grid of a dimension: the points half a bin inside the positions of the sensors, a bin apart, up to half a bin before the last position; a point
    there is still in the grid, with the tolerance 2^-23 *)
Definition lowest (l : list Q) (m : Q) : Prop := In m l /\ forall x, In x l -> m <= x.
Definition highest (l : list Q) (m : Q) : Prop := In m l /\ forall x, In x l -> x <= m.
Lemma fold_min l : forall a, exists m, fold_left Qmin l a == m /\ lowest (a :: l) m.
Proof.
  induction l as [|b l IH]; intros a; cbn [fold_left]; [exists a; split; [reflexivity|]; split; [now left|]; intros x [->|[]]; lra|].
  destruct (IH (Qmin a b)) as (m & E & [I L]). destruct I as [I|I].
  - destruct (Qlt_le_dec a b) as [H|H].
    + assert (Em : Qmin a b == a) by (apply Q.min_l; lra). exists a. split; [rewrite E, <- I; exact Em|]. split; [now left|]. intros x [->|[->|Hx]]; [lra|lra|]. specialize (L x (or_intror Hx)). rewrite <- I, Em in L. exact L.
    + assert (Em : Qmin a b == b) by (apply Q.min_r; lra). exists b. split; [rewrite E, <- I; exact Em|]. split; [right; now left|]. intros x [->|[->|Hx]]; [lra|lra|]. specialize (L x (or_intror Hx)). rewrite <- I, Em in L. exact L.
  - exists m. split; [exact E|]. split; [right; now right|]. pose proof (L _ (or_introl eq_refl)) as L0. pose proof (Q.le_min_l a b). pose proof (Q.le_min_r a b). intros x [->|[->|Hx]]; [lra|lra|]. apply L. now right.
Qed.
Lemma fold_max l : forall a, exists m, fold_left Qmax l a == m /\ highest (a :: l) m.
Proof.
  induction l as [|b l IH]; intros a; cbn [fold_left]; [exists a; split; [reflexivity|]; split; [now left|]; intros x [->|[]]; lra|].
  destruct (IH (Qmax a b)) as (m & E & [I L]). destruct I as [I|I].
  - destruct (Qlt_le_dec b a) as [H|H].
    + assert (Em : Qmax a b == a) by (apply Q.max_l; lra). exists a. split; [rewrite E, <- I; exact Em|]. split; [now left|]. intros x [->|[->|Hx]]; [lra|lra|]. specialize (L x (or_intror Hx)). rewrite <- I, Em in L. exact L.
    + assert (Em : Qmax a b == b) by (apply Q.max_r; lra). exists b. split; [rewrite E, <- I; exact Em|]. split; [right; now left|]. intros x [->|[->|Hx]]; [lra|lra|]. specialize (L x (or_intror Hx)). rewrite <- I, Em in L. exact L.
  - exists m. split; [exact E|]. split; [right; now right|]. pose proof (L _ (or_introl eq_refl)) as L0. pose proof (Q.le_max_l a b). pose proof (Q.le_max_r a b). intros x [->|[->|Hx]]; [lra|lra|]. apply L. now right.
Qed.
Theorem C83_centres positions bs a b : 0 < bs -> lowest positions a -> highest positions b ->
  forall k g, nth_error (DinModel.grid_of positions bs) k = Some g -> g == a + (1 # 2) * bs + qn k * bs /\ g < b - (1 # 2) * bs + / inject_Z (2 ^ 23).
Proof.
  intros Hb A B k g. unfold DinModel.grid_of. destruct positions as [|p l]; [destruct k; discriminate|]. destruct (fold_min l p) as (m & Em & [M1 M2]). destruct (fold_max l p) as (x & Ex & [X1 X2]).
  assert (Ea : fold_left Qmin l p == a) by (rewrite Em; apply Qle_antisym; [apply M2, A|apply A, M1]). assert (Eb : fold_left Qmax l p == b) by (rewrite Ex; apply Qle_antisym; [apply B, X1|apply X2, B]).
  unfold arange. intros H. set (lo := fold_left Qmin l p) in *. set (hi := fold_left Qmax l p) in *. clearbody lo hi. rewrite nth_error_map in H. destruct (nth_error (seq 0 _) k) as [j|] eqn:Ej; [|discriminate]. injection H as <-.
  assert (Hk : (k < Z.to_nat (Qround.Qceiling ((hi - bs / 2 + DinModel.eps32 - (lo + bs / 2)) / bs)))%nat) by (match type of Ej with nth_error ?l _ = _ => assert (Y : (k < len l)%nat) by (apply nth_error_Some; congruence) end; now rewrite seq_length in Y).
  apply (nth_error_nth _ _ 0%nat) in Ej. rewrite seq_nth in Ej by exact Hk. cbn in Ej. subst j. split; [rewrite Ea; field|].
  set (q := (hi - bs / 2 + DinModel.eps32 - (lo + bs / 2)) / bs) in *. assert (Kq : qn k < q).
  { apply Qnot_le_lt. intros C. unfold qn in C. assert (D : (Qround.Qceiling q <= Z.of_nat k)%Z) by (rewrite <- (Qround.Qceiling_Z (Z.of_nat k)); apply Qround.Qceiling_resp_le; exact C). lia. }
  assert (Q1 : q * bs == hi - bs / 2 + DinModel.eps32 - (lo + bs / 2)) by (unfold q; field; lra). assert (Q2 : qn k * bs < q * bs) by (apply Qmult_lt_compat_r; assumption). change (/ inject_Z (2 ^ 23)) with DinModel.eps32. setoid_replace (bs / 2) with ((1 # 2) * bs) in Q1 by field. setoid_replace (bs / 2) with ((1 # 2) * bs) by field. rewrite Q1 in Q2. lra.
Qed.
Theorem C83_centres_all positions bs a b k : 0 < bs -> lowest positions a -> highest positions b -> a + (1 # 2) * bs + qn k * bs < b - (1 # 2) * bs + / inject_Z (2 ^ 23) -> (k < len (DinModel.grid_of positions bs))%nat.
Proof.
  intros Hb A B H. unfold DinModel.grid_of. destruct positions as [|p l]; [destruct (proj1 A)|]. destruct (fold_min l p) as (m & Em & [M1 M2]). destruct (fold_max l p) as (x & Ex & [X1 X2]).
  assert (Ea : fold_left Qmin l p == a) by (rewrite Em; apply Qle_antisym; [apply M2, A|apply A, M1]). assert (Eb : fold_left Qmax l p == b) by (rewrite Ex; apply Qle_antisym; [apply B, X1|apply X2, B]).
  unfold arange. set (lo := fold_left Qmin l p) in *. set (hi := fold_left Qmax l p) in *. clearbody lo hi. rewrite map_length, seq_length.
  set (q := (hi - bs / 2 + DinModel.eps32 - (lo + bs / 2)) / bs). assert (Q1 : q * bs == hi - bs / 2 + DinModel.eps32 - (lo + bs / 2)) by (unfold q; field; lra). setoid_replace (bs / 2) with ((1 # 2) * bs) in Q1 by field.
  change (/ inject_Z (2 ^ 23)) with DinModel.eps32 in H. assert (Kq : qn k < q) by (apply (Qmult_lt_r _ _ bs); [exact Hb|]; rewrite Q1; lra).
  pose proof (Qround.Qle_ceiling q) as C. assert (D : inject_Z (Z.of_nat k) < inject_Z (Qround.Qceiling q)) by (unfold qn in Kq; lra). rewrite <- Zlt_Qlt in D. lia.
Qed.
Print Assumptions C83_centres.
Print Assumptions C83_centres_all.
Example C83_grid_ex : lowest [10; 0; 30; 20] 0 /\ highest [10; 0; 30; 20] 30 /\ map Qred (DinModel.grid_of [10; 0; 30; 20] 10) = [5; 15; 25].
Proof. split; [|split; [|reflexivity]]; (split; [cbn; tauto|]); intros x Hx; cbn in Hx; repeat (destruct Hx as [<-|Hx]; [lra|]); destruct Hx. Qed.

(** C90: a bin of the map with less than five events has 4/235 of their median as its width and no value; the others have the median and the standard deviation *)
Theorem C90_medians std over_sqrt var : var <> [] -> let f := KmapModel.get_median std over_sqrt var in exists med, is_median var med /\
  KmapModel.nevents f = Some (qn (len var)) /\ KmapModel.sigma_error f = None /\ KmapModel.mu_error f = over_sqrt (KmapModel.sigma f) (len var) /\
  ((5 <= len var)%nat -> KmapModel.mu f = Some med /\ KmapModel.sigma f = std var) /\ ((len var < 5)%nat -> KmapModel.mu f = None /\ exists s, KmapModel.sigma f = Some s /\ s * 235 == 4 * med).
Proof.
  intros N f. exists (median var). split; [now apply median_is|]. unfold f, KmapModel.get_median. cbn zeta. cbn [KmapModel.nevents KmapModel.sigma_error KmapModel.mu_error KmapModel.sigma KmapModel.mu]. split; [reflexivity|]. split; [reflexivity|]. split; [reflexivity|].
  destruct (Nat.ltb_spec (len var) 5); split; intros; try lia; split; try reflexivity. eexists. split; [reflexivity|]. field.
Qed.
Print Assumptions C90_medians.
Example C90_medians_ex : match KmapModel.sigma (KmapModel.get_median (fun _ => Some 1) (fun v _ => v) [47; 94; 0]) with Some s => s == 4 # 5 | None => False end.
Proof. reflexivity. Qed.
