(** C99: the drift velocity and the uncertainties of the time evolution *)
From Verif Require Import FiltersSpec FiltersProps.
From Verif Require Import Base Arrays PeaksModel PeaksProofs BuffersProofs WfmModel PmapioProofs DbModel DbProps DbThr CorrModel CorrSpec CorrProps CorrMore KmapModel KmapSpec KmapProps KmapGrid KmapTime TevModel TevSpec IreneProofs TevProps.
Local Open Scope Q_scope.

(** the histogram of [data], with the middles of its bins *)
Definition counted (edges : list Q) (data : list val) (x : list Q) (y : list nat) : Prop :=
  List.length x = List.length y /\ (forall k, (k < List.length x)%nat -> nth k x 0 == (nth k edges 0 + nth (S k) edges 0) / 2) /\ histogram_of edges (numbers data) y.
(** the error of a count: its square root, and 3 for no count *)
Definition poisson_errors (sqrt : Q -> Q) (y : list nat) (sigma : list Q) : Prop :=
  List.length sigma = List.length y /\ forall k, (k < List.length y)%nat -> (nth k y 0 = 0 -> nth k sigma 0%Q = 3%Q)%nat /\ (0 < nth k y 0 -> nth k sigma 0%Q = sqrt (qn (nth k y 0)))%nat.
Definition top_of (y : list nat) (m : nat) : Prop := In m y /\ forall n, In n y -> (n <= m)%nat.
Definition low_of (y : list nat) (m : nat) : Prop := In m y /\ forall n, In n y -> (m <= n)%nat.
(** the drift velocity: 1192.37 mm over the position of the edge of the sigmoid fitted to the drift times of the region, and the error of this position
    carried over; nothing when the fit does not converge *)
Definition drift_of (sqrt : Q -> Q) (fit_sigmoid : list Q -> list nat -> nat * Q * Q * nat -> list Q -> result (Q * val)) (dtbins : list Q) (inside : krevent -> Prop) (s : list tevent) (r : tevol) : Prop :=
  exists region x y top low mid sigma, (forall e, In e region <-> In e (map te s) /\ inside e) /\ counted dtbins (map kDT region) x y /\ top_of y top /\ low_of y low /\ is_mean dtbins mid /\ poisson_errors sqrt y sigma /\
  ((exists p e, fit_sigmoid x y (top, mid, 1 # 2, low) sigma = Ok (p, e) /\
      (~ p == 0 -> exists v, v_dv r = Some v /\ v * p == 119237 # 100 /\ (e = None -> v_dvu r = None) /\ forall u, e = Some u -> exists w, v_dvu r = Some w /\ w * p == v * u)) \/
   (fit_sigmoid x y (top, mid, 1 # 2, low) sigma = Err (Other 70) /\ v_dv r = None /\ v_dvu r = None)).

(** the gaussian fitted to the histogram of the energies, when the fit succeeds and moves all three parameters *)
Definition fitted_gaussian (sqrt : Q -> Q) (root2pi : Q) (fit_gauss : list Q -> list nat -> Q * Q * Q -> option (list Q) -> result ((Q * Q * Q) * (val * val * val) * val)) (edges : list Q) (with_errors : bool) (ec : list val)
    (m s : Q) (um : val) (chi2 : val) : Prop :=
  exists x y top mid sigma a ua us, counted edges ec x y /\ top_of y top /\ is_median x mid /\
    (if with_errors then exists l, sigma = Some l /\ poisson_errors sqrt y l else sigma = None) /\
    fit_gauss x y (qn top * root2pi * ((2 # 100) * mid), mid, (2 # 100) * mid) sigma = Ok (a, m, s, (ua, um, us), chi2) /\ ~ a == qn top * root2pi * ((2 # 100) * mid) /\ ~ m == mid /\ ~ s == (2 # 100) * mid.
(** an energy with its error, deviation and chi2: those of the gaussian; or those of the numbers, when there is no such gaussian: the deviation is 4/235 of the median for
    less than five rows, and the error is the deviation over the square root of the number of rows *)
Definition energy_with_error (fitted : Q -> Q -> val -> val -> Prop) (sqrt : Q -> Q) (std : list Q -> val) (ec : list val) (m s u chi2 : val) : Prop :=
  (exists q d, m = Some q /\ s = Some d /\ fitted q d u chi2) \/
  (chi2 = None /\ u = vmap (fun d => d / sqrt (qn (List.length ec))) s /\
   ((numbers ec = [] /\ m = None /\ s = None) \/
    ((List.length ec < 5)%nat /\ m = None /\ exists d md, is_median (numbers ec) md /\ s = Some d /\ d * 235 == 4 * md) \/
    ((5 <= List.length ec)%nat /\ s = std (numbers ec) /\ exists md, m = Some md /\ is_median (numbers ec) md))).

Lemma min_nat_spec l m : min_nat l = Ok m -> low_of l m.
Proof.
  destruct l as [|x l]; [discriminate|]. cbn [min_nat]. injection 1 as <-. unfold low_of. revert x. induction l as [|y l IH]; intros x; cbn [fold_left]; [split; [now left|intros n [->|[]]; lia]|].
  destruct (IH (Nat.min x y)) as [A B]. split.
  - destruct A as [A|A]; [|right; now right]. rewrite <- A. destruct (Nat.min_spec x y) as [[_ ->]|[_ ->]]; [now left|right; now left].
  - intros n [->|[->|H]]; [specialize (B _ (or_introl eq_refl)); lia|specialize (B _ (or_introl eq_refl)); lia|apply B; now right].
Qed.
Lemma poisson_ok sqrt y : poisson_errors sqrt y (poisson_sigma sqrt y).
Proof.
  split; [apply map_length|]. intros k Hk. unfold poisson_sigma. rewrite (nth_indep _ 0 (if (0 =? 0)%nat then 3 else sqrt (qn 0))) by now rewrite map_length. change (if (0 =? 0)%nat then 3 else sqrt (qn 0)) with ((fun n => if (n =? 0)%nat then 3 else sqrt (qn n)) 0%nat). rewrite map_nth. cbv beta.
  destruct (Nat.eqb_spec (nth k y 0%nat) 0); split; intros; try reflexivity; lia.
Qed.
Lemma counted_ok edges data : counted edges data (centres edges) (hist edges (numbers data)).
Proof. destruct (centres_spec edges) as [C1 C2]. pose proof (hist_spec edges (numbers data)) as H. split; [rewrite C1; symmetry; apply (proj1 H)|]. split; [exact C2|exact H]. Qed.

Section More.
  Variable sqrt : Q -> Q.
  Variables root2pi fwhm : Q.
  Variables std std0 : list Q -> val.
  Variable fit_expo : list Q -> list Q -> val -> result (Q * Q * (val * val)).
  Variable fit_gauss : list Q -> list nat -> Q * Q * Q -> option (list Q) -> result ((Q * Q * Q) * (val * val * val) * val).
  Variable fit_sigmoid : list Q -> list nat -> nat * Q * Q * nat -> list Q -> result (Q * val).

  Lemma energy_more bins error ec : let '(m, s, u, _, chi2) := energy sqrt root2pi std fit_gauss ec bins error in
    energy_with_error (fitted_gaussian sqrt root2pi fit_gauss bins error ec) sqrt std ec m s u chi2.
  Proof.
    unfold energy. destruct (quick_gauss_fit _ _ _ _ _ _) as [[[[[a m] s] [[ua um] us]] chi2]|e] eqn:E.
    - left. exists m, s. split; [reflexivity|]. split; [reflexivity|]. unfold quick_gauss_fit in E. destruct (negb (increasing bins)); [discriminate|]. cbv zeta in E. rewrite present_numbers in E. unfold gauss_seed in E. destruct (max_nat (hist bins (numbers ec))) as [top|] eqn:T; [|discriminate]. cbn [rbind] in E.
      apply max_nat_spec in T. pose proof (counted_ok bins ec) as C. set (y := hist bins (numbers ec)) in *. set (x := centres bins) in *.
      match type of E with rbind (fit_gauss _ _ _ ?sg) _ = _ => set (sigma := sg) in E end. destruct (fit_gauss x y _ sigma) as [[[[[a' m'] s'] er] ch]|] eqn:F; [|discriminate]. cbn [rbind] in E.
      destruct (_ || _)%bool eqn:D; [discriminate|]. injection E as -> -> -> -> ->. apply orb_false_iff in D. destruct D as [D D3]. apply orb_false_iff in D. destruct D as [D1 D2].
      exists x, y, top, (median x), sigma, a, ua, us.
      split; [exact C|]. split; [exact T|]. split; [apply median_is; intros K; destruct C as [Ly _]; rewrite K in Ly; destruct y; [destruct T as [[] _]|discriminate]|].
      split; [unfold sigma; destruct error; [eexists; split; [reflexivity|apply poisson_ok]|reflexivity]|]. split; [exact F|].
      destruct (Qeqb_spec a (qn top * root2pi * ((2 # 100) * median x))); [discriminate|]. destruct (Qeqb_spec m (median x)); [discriminate|]. destruct (Qeqb_spec s ((2 # 100) * median x)); [discriminate|]. tauto.
    - right. cbv zeta. rewrite present_numbers. split; [reflexivity|]. split; [reflexivity|]. destruct (numbers ec) as [|q l] eqn:N; [left; auto|]. right. rewrite <- N. assert (Ne : numbers ec <> []) by (rewrite N; discriminate).
      destruct (Nat.ltb_spec (List.length ec) 5) as [L|L]; [left|right]; (split; [exact L|]).
      + split; [reflexivity|]. exists ((4 # 100) / (235 # 100) * median (numbers ec)), (median (numbers ec)). split; [now apply median_is|]. split; [reflexivity|]. field.
      + split; [reflexivity|]. exists (median (numbers ec)). split; [reflexivity|now apply median_is].
  Qed.
  Lemma drift_more region bins dvs : compute_drift_v sqrt fit_sigmoid (map kDT region) bins = Ok dvs ->
    exists x y top low mid sigma, counted bins (map kDT region) x y /\ top_of y top /\ low_of y low /\ is_mean bins mid /\ poisson_errors sqrt y sigma /\
    ((exists p e, fit_sigmoid x y (top, mid, 1 # 2, low) sigma = Ok (p, e) /\
        (~ p == 0 -> exists v, fst dvs = Some v /\ v * p == 119237 # 100 /\ (e = None -> snd dvs = None) /\ forall u, e = Some u -> exists w, snd dvs = Some w /\ w * p == v * u)) \/
     (fit_sigmoid x y (top, mid, 1 # 2, low) sigma = Err (Other 70) /\ fst dvs = None /\ snd dvs = None)).
  Proof.
    unfold compute_drift_v. destruct (negb (increasing bins)); [discriminate|]. rewrite present_numbers. pose proof (counted_ok bins (map kDT region)) as C. set (y := hist bins _) in *. set (x := centres bins) in *. cbv zeta.
    destruct (max_nat y) as [top|] eqn:T; [|discriminate]. destruct (min_nat y) as [low|] eqn:W; [|discriminate]. cbn [rbind]. apply max_nat_spec in T. apply min_nat_spec in W.
    assert (Nb : bins <> []). { intros ->. destruct T as [[] _]. }
    destruct (fit_sigmoid x y _ _) as [[p e]|er] eqn:F.
    - injection 1 as <-. exists x, y, top, low, (meanQ bins), (poisson_sigma sqrt y). split; [exact C|]. split; [exact T|]. split; [exact W|]. split; [now apply mean_is|]. split; [apply poisson_ok|].
      left. exists p, e. split; [exact F|]. intros Np. cbn [vdiv fst snd]. destruct (Qeqb_spec p 0); [contradiction|]. eexists. split; [reflexivity|]. split; [field; exact Np|]. split; [intros ->; reflexivity|]. intros u ->. cbn [vmap vdiv option_map]. destruct (Qeqb_spec p 0); [contradiction|]. eexists. split; [reflexivity|]. field. exact Np.
    - destruct er; try discriminate. do 71 (destruct n as [|n]; try discriminate). injection 1 as <-. exists x, y, top, low, (meanQ bins), (poisson_sigma sqrt y). split; [exact C|]. split; [exact T|]. split; [exact W|]. split; [now apply mean_is|]. split; [apply poisson_ok|]. right. split; [exact F|]. split; reflexivity.
  Qed.
  (** the rest of a row *)
  Definition uncertainties_of (s : list tevent) (r : tevol) : Prop :=
    v_neventsu r = sqrt (qn (v_nevents r)) /\ (forall q, v_rate r = Some q -> exists u, v_rateu r = Some u /\ u * qn (v_nevents r) == q * sqrt (qn (v_nevents r))) /\
    v_s2eu r = vmap (fun d => d / sqrt (qn (v_nevents r))) (std (numbers (map (fun e => kS2e (te e)) s))) /\
    (forall c m u, In (c, (m, u)) (v_means r) -> u = vmap (fun d => d / sqrt (qn (v_nevents r))) (std (numbers (map (fun e => te_col e c) s)))).
  Lemma row_more run x0 y0 shape size dtbins s1_lo s1_hi bins error s r : s <> [] -> get_time_evol_single_slice sqrt root2pi fwhm std std0 fit_expo fit_gauss fit_sigmoid run x0 y0 shape size dtbins s1_lo s1_hi bins error s = Ok r ->
    drift_of sqrt fit_sigmoid dtbins (inside x0 y0 shape size) s r /\ uncertainties_of s r /\
    (exists d, energy_with_error (fitted_gaussian sqrt root2pi fit_gauss bins error (map te_Ec s)) sqrt std (map te_Ec s) (v_ec r) d (v_ecu r) (v_chi2 r)) /\
    (exists d, energy_with_error (fitted_gaussian sqrt root2pi fit_gauss bins error (map te_Ec2 s)) sqrt std (map te_Ec2 s) (v_ec2 r) d (v_ec2u r) (v_chi2_self r) /\
       forall q v, d = Some q -> v_ec2 r = Some v -> ~ v == 0 -> exists w, v_resol r = Some w /\ w * v == q * fwhm * 100).
  Proof.
    intros N. unfold get_time_evol_single_slice. cbv zeta. cbn beta iota.
    destruct (select_lifetime_region (map te s) x0 y0 shape size) as [region|] eqn:R; [|discriminate]. cbn [rbind]. pose proof (C63_region _ _ _ _ _ _ R) as RG.
    match goal with |- match ?x with _ => _ end = _ -> _ => destruct x as [[[e0 e0u] lt] ltu] eqn:FX end.
    destruct (compute_drift_v _ _ _ _) as [dvs|] eqn:D; [|discriminate]. cbn [rbind]. apply drift_more in D.
    pose proof (energy_more bins error (map te_Ec s)) as E1. destruct (energy _ _ _ _ (map te_Ec s) _ _) as [[[[ec u1] ecu] u2] chi2]. pose proof (energy_more bins error (map te_Ec2 s)) as E2. destruct (energy _ _ _ _ (map te_Ec2 s) _ _) as [[[[ec2 sg2] ec2u] u3] chi2s].
    destruct (min_time (map te s)) as [t0|] eqn:T0; [|discriminate]. destruct (max_time (map te s)) as [t1|] eqn:T1; [|discriminate]. injection 1 as <-.
    split; [|split; [|split]].
    - destruct D as (x & y & top & low & mid & sigma & D). exists region, x, y, top, low, mid, sigma. split; [|exact D]. exact RG.
    - unfold uncertainties_of. cbn [v_neventsu v_nevents v_rate v_rateu v_s2eu v_means]. split; [reflexivity|]. split; [|split].
      + intros q. unfold vdiv. destruct (Qeqb_spec (t1 - t0) 0) as [Z|Z]; [discriminate|]. injection 1 as <-. eexists. split; [reflexivity|]. field. exact Z.
      + now rewrite present_numbers.
      + intros c m u H. cbn [In] in H. repeat (destruct H as [H|H]; [injection H as <- _ <-; now rewrite present_numbers|]). destruct H.
    - exists u1. exact E1.
    - exists sg2. split; [exact E2|]. cbn [v_resol v_ec2]. intros q v -> -> Nv. cbn [vdiv]. destruct (Qeqb_spec v 0); [contradiction|]. eexists. split; [reflexivity|]. field. exact Nv.
  Qed.
End More.

(** the rows of the table, one for each slice (C99_rows): the drift velocity, the uncertainties and the resolution *)
Theorem C99_uncertainties sqrt root2pi fwhm std std0 fit_expo fit_gauss fit_sigmoid len run x0 y0 shape size dtbins s1_lo s1_hi bins error df rows :
  0 < len -> get_time_evol sqrt root2pi fwhm std std0 fit_expo fit_gauss fit_sigmoid len run x0 y0 shape size dtbins s1_lo s1_hi bins error df = Ok rows ->
  exists t0 ks parts, is_least (times df) t0 /\ StronglySorted lt ks /\ Permutation (concat parts) df /\
    Forall2 (fun k s => s <> [] /\ forall e, In e s <-> In e df /\ slice_number t0 len (te e) k) ks parts /\
    Forall2 (fun s r => counts_of s r /\ drift_of sqrt fit_sigmoid dtbins (inside x0 y0 shape size) s r /\ uncertainties_of sqrt std s r /\
      (exists d, energy_with_error (fitted_gaussian sqrt root2pi fit_gauss bins error (map te_Ec s)) sqrt std (map te_Ec s) (v_ec r) d (v_ecu r) (v_chi2 r)) /\
      (exists d, energy_with_error (fitted_gaussian sqrt root2pi fit_gauss bins error (map te_Ec2 s)) sqrt std (map te_Ec2 s) (v_ec2 r) d (v_ec2u r) (v_chi2_self r) /\
         forall q v, d = Some q -> v_ec2 r = Some v -> ~ v == 0 -> exists w, v_resol r = Some w /\ w * v == q * fwhm * 100)) parts rows.
Proof.
  intros L H. unfold get_time_evol in H. destruct df as [|e0 df0] eqn:Ed; [discriminate|]. rewrite <- Ed in H |- *. assert (N : df <> []) by (rewrite Ed; discriminate). clear Ed. destruct (slices_spec len df L N) as (t0 & ks & T & S & F & P).
  exists t0, ks, (slices len df). repeat (split; [assumption|]). assert (Ne : Forall (fun s => s <> []) (slices len df)) by (clear -F; induction F as [|k s ks l [H _] F IH]; constructor; assumption).
  clear -H Ne. revert rows H. induction Ne as [|s l Hs Ne IH]; intros rows H; cbn [rmap] in H; [injection H as <-; constructor|].
  destruct (get_time_evol_single_slice _ _ _ _ _ _ _ _ _ _ _ _ _ _ _ _ _ _ s) as [r|] eqn:E; [|discriminate]. destruct (rmap _ l) as [rs|]; [|discriminate]. injection H as <-. constructor; [|now apply IH].
  split; [exact (proj1 (proj2 (row_spec _ _ _ _ _ _ _ _ _ _ _ _ _ _ _ _ _ _ _ _ Hs E)))|]. exact (row_more _ _ _ _ _ _ _ _ _ _ _ _ _ _ _ _ _ _ _ _ Hs E).
Qed.
Print Assumptions C99_uncertainties.

(** edges that go back, or fewer than two, end the run; a histogram needs edges in order *)
Theorem C99_edges sqrt root2pi fwhm std std0 fit_expo fit_gauss fit_sigmoid len run x0 y0 shape size dtbins s1_lo s1_hi bins error df :
  0 < len -> df <> [] -> shape <> OtherShape -> (exists k, (S k < List.length dtbins)%nat /\ nth (S k) dtbins 0 < nth k dtbins 0) \/ (List.length dtbins < 2)%nat ->
  get_time_evol sqrt root2pi fwhm std std0 fit_expo fit_gauss fit_sigmoid len run x0 y0 shape size dtbins s1_lo s1_hi bins error df = Err ValueError.
Proof.
  intros L N Sh Hb. destruct (slices_spec len df L N) as (t0 & ks & T & S & F & P). unfold get_time_evol. destruct df as [|e0 df0] eqn:Ed; [contradiction|]. rewrite <- Ed in *.
  destruct (slices len df) as [|s l] eqn:Es; [rewrite Ed in P; apply Permutation_nil in P; discriminate|]. cbn [rmap].
  replace (get_time_evol_single_slice _ _ _ _ _ _ _ _ _ _ _ _ _ _ _ _ _ _ s) with (@Err tevol ValueError); [reflexivity|]. symmetry. unfold get_time_evol_single_slice. cbv zeta. cbn beta iota.
  assert (R : exists region, select_lifetime_region (map te s) x0 y0 shape size = Ok region) by (destruct shape; [eexists; reflexivity|eexists; reflexivity|contradiction]). destruct R as (region & ->). cbn [rbind].
  match goal with |- match ?x with _ => _ end = _ => destruct x as [[[a b] c] d] end.
  replace (compute_drift_v _ _ _ _) with (@Err (val * val) ValueError); [reflexivity|]. symmetry. unfold compute_drift_v. destruct Hb as [(k & Hk & Hlt)|Hs].
  - replace (increasing dtbins) with false; [reflexivity|]. symmetry. clear -Hk Hlt. revert k Hk Hlt. induction dtbins as [|a [|b t] IH]; intros k Hk Hlt; try (cbn in Hk; lia). change ((Qle_bool a b && increasing (b :: t))%bool = false). destruct k as [|k].
    + cbn in Hlt. destruct (Qle_bool a b) eqn:E; [apply Qle_bool_iff in E; lra|reflexivity].
    + rewrite (IH k); [apply andb_false_r|cbn [List.length] in *; lia|exact Hlt].
  - destruct dtbins as [|q1 [|q2 t]]; [reflexivity|reflexivity|cbn in Hs; lia].
Qed.
Print Assumptions C99_edges.

(** the table of C99_ex, with a gaussian that is found; and edges out of order *)
Definition ytable bins := get_time_evol (fun q => q) 1 2 (fun l => Some (sumQ l)) (fun l => Some (sumQ l)) (fun _ l _ => Err (Other 70))
  (fun _ y _ _ => match y with [2%nat; _] => Ok (7, 43, 5, (None, Some (1 # 2), None), Some 1) | _ => Err (Other 70) end) (fun _ y _ _ => match y with [0%nat; _] => Err (Other 70) | _ => Ok (1000, Some 1) end) 3600 8000 0 0 Circle 5 bins 0 25 [0; 45; 100] true xdata.
Example C99_uncertainties_ex : match ytable [0; 20; 40] with
  | Ok [a; b] => vmap Qred (v_dv a) = Some (119237 # 100000) /\ vmap Qred (v_dvu a) = Some (119237 # 100000000) /\ v_ec a = Some 43 /\ v_ecu a = Some (1 # 2) /\ v_chi2 a = Some 1 /\ v_ec b = None /\ vmap Qred (v_ecu b) = Some (48 # 47) /\ vmap Qred (v_rateu a) = Some (1 # 900)
  | _ => False end /\ ytable [0; 20; 10] = Err ValueError /\ ytable [3] = Err ValueError.
Proof. vm_compute. repeat split. Qed.
