(** C99: the table of the time evolution *)
From Verif Require Import FiltersSpec FiltersProps.
From Verif Require Import Base Arrays PeaksModel PeaksProofs BuffersProofs WfmModel PmapioProofs DbModel DbProps DbThr CorrModel CorrSpec CorrProps CorrMore KmapModel KmapSpec KmapProps KmapGrid KmapTime TevModel TevSpec IreneProofs.
Local Open Scope Q_scope.

  Lemma slices_spec len (df : list tevent) : 0 < len -> df <> [] ->
    exists t0 ks, is_least (times df) t0 /\ StronglySorted lt ks /\
      Forall2 (fun k s => s <> [] /\ forall e, In e s <-> In e df /\ slice_number t0 len (te e) k) ks (slices len df) /\ Permutation (concat (slices len df)) df.
  Proof.
    intros L N. assert (N' : map te df <> []) by (destruct df; [contradiction|discriminate]). unfold slices. destruct (min_time_some _ N') as (t0 & Et). destruct (max_time_some _ N') as (t1 & Et1). rewrite Et, Et1. apply min_time_least in Et. apply maxQ_greatest in Et1. rewrite map_map in Et, Et1.
    set (bins := arange t0 (t1 + len) len). set (f := fun e => digitize (ktime (te e)) bins). set (ns := sort_by Nat.leb (nodup Nat.eq_dec (map f df))).
    assert (F : forall e, In e df -> exists k, f e = S k /\ slice_number t0 len (te e) k).
    { intros e He. unfold f, bins. apply digitize_arange; [assumption|]. split; [apply Et|apply Et1]; now apply (in_map (fun e => ktime (te e))). }
    assert (In_ns : forall n, In n ns <-> exists e, In e df /\ f e = n) by (intros n; unfold ns; rewrite in_sort_by, nodup_In, in_map_iff; split; intros (e & A & B); exists e; auto).
    assert (Nd : NoDup ns) by (unfold ns; eapply Permutation_NoDup; [symmetry; apply sort_by_perm|apply NoDup_nodup]).
    assert (S : StronglySorted lt ns).
    { pose proof (sort_by_sorted Nat.leb leb_total leb_trans (nodup Nat.eq_dec (map f df))) as S. fold ns in S. clear - S Nd. induction S as [|a l S IH F]; constructor; [apply IH; now inversion Nd|]. inversion Nd as [|? ? N1 N2]; subst. rewrite Forall_forall in F |- *. intros x Hx. specialize (F x Hx). apply Nat.leb_le in F. assert (a <> x) by (intros ->; contradiction). lia. }
    exists t0, (map pred ns). split; [assumption|]. split; [|split].
    - assert (P : forall n, In n ns -> (0 < n)%nat) by (intros n Hn; apply In_ns in Hn; destruct Hn as (e & He & <-); destruct (F e He) as (k & -> & _); lia). clear - S P. induction S as [|a l S IH Fa]; cbn; constructor; [apply IH; intros; apply P; now right|]. rewrite Forall_forall in Fa |- *. intros x Hx. apply in_map_iff in Hx. destruct Hx as (y & <- & Hy). specialize (Fa y Hy). pose proof (P a (or_introl eq_refl)). lia.
    - assert (G : forall n, In n ns -> (filter (fun e => (f e =? n)%nat) df <> [] /\ forall e, In e (filter (fun e => (f e =? n)%nat) df) <-> In e df /\ slice_number t0 len (te e) (pred n))).
      { intros n Hn. apply In_ns in Hn. destruct Hn as (e0 & He0 & E0). split.
        - intros K. assert (X : In e0 (filter (fun e => (f e =? n)%nat) df)) by (apply filter_In; split; [assumption|now apply Nat.eqb_eq]). rewrite K in X. destruct X.
        - intros e. rewrite filter_In, Nat.eqb_eq. split; intros [He K]; (split; [assumption|]); destruct (F e He) as (k & Ek & Hk).
          + rewrite <- K, Ek. exact Hk.
          + rewrite Ek. destruct (F e0 He0) as (k0 & Ek0 & _). rewrite E0 in Ek0. subst n. rewrite Ek0 in K. cbn [pred] in K. rewrite Ek0. f_equal. now apply (slice_number_unique t0 len (te e)). }
      change (Forall2 (fun k s => s <> [] /\ (forall e, In e s <-> In e df /\ slice_number t0 len (te e) k)) (map pred ns) (map (fun n => filter (fun e => (f e =? n)%nat) df) ns)).
      clear - G. revert G. generalize ns. induction ns0 as [|n l IH]; intros G; cbn [map]; constructor; [apply G; now left|apply IH; intros; apply G; now right].
    - apply (slices_perm f); [assumption|]. intros e He. apply In_ns. now exists e.
  Qed.

  Lemma how_many_ext {A} (P R : A -> Prop) l n : (forall x, P x <-> R x) -> how_many P l n -> how_many R l n.
  Proof. intros E. induction 1 as [|a l n H M IH|a l n H M IH]; [constructor|constructor; [now apply E|exact IH]|constructor; [now rewrite <- E|exact IH]]. Qed.
  Lemma hist_spec edges data : histogram_of edges data (hist edges data).
  Proof.
    assert (L : forall e, List.length (hist e data) = (List.length e - 1)%nat) by (induction e as [|a [|b t] IH]; [reflexivity|reflexivity|]; cbn [hist length] in *; rewrite IH; lia).
    split; [apply L|]. induction edges as [|a [|b t] IH]; intros k Hk; try (cbn in Hk; lia). rewrite L in Hk |- *. cbn [List.length] in Hk |- *. destruct k as [|k].
    - match goal with |- how_many ?P _ _ => change (how_many P data (List.length (filter (fun x => Qle_bool a x && (Qltb x b || (match t with [] => true | _ => false end && Qeqb x b)))%bool data))) end. cbn [nth].
      refine (proj2 (how_many_filter _ (fun x => (Qle_bool a x && (Qltb x b || (match t with [] => true | _ => false end && Qeqb x b)))%bool) _ _ _) eq_refl). intros x. rewrite andb_true_iff, orb_true_iff, andb_true_iff, Qle_bool_iff. destruct (Qltb_spec x b), (Qeqb_spec x b), t; cbn [List.length]; intuition (try lia; try discriminate; try lra).
    - specialize (IH k ltac:(rewrite L; cbn [List.length]; lia)). rewrite L in IH. cbn [List.length] in IH. change (nth (S k) (hist (a :: b :: t) data) 0%nat) with (nth k (hist (b :: t) data) 0%nat). change (nth (S (S k)) (a :: b :: t) 0) with (nth (S k) (b :: t) 0). change (nth (S k) (a :: b :: t) 0) with (nth k (b :: t) 0).
      revert IH. apply how_many_ext. intros x. split; intros [A [B|[B C]]]; (split; [exact A|]); try (left; exact B); right; (split; [lia|exact C]).
  Qed.
  Lemma mean_spec l : ignoring_nan is_mean l (nanmean l).
  Proof. apply nanmean_is. Qed.
  Lemma centres_spec e : List.length (centres e) = (List.length e - 1)%nat /\ forall k, (k < List.length (centres e))%nat -> nth k (centres e) 0 == (nth k e 0 + nth (S k) e 0) / 2.
  Proof.
    induction e as [|a [|b t] [IH1 IH2]]; [split; [reflexivity|intros k Hk; cbn in Hk; lia]..|]. split; [cbn [centres length] in *; lia|]. intros [|k] Hk; [cbn; field|]. cbn [centres length] in Hk. specialize (IH2 k ltac:(cbn [centres length] in *; lia)). exact IH2.
  Qed.
  Lemma max_nat_spec l m : max_nat l = Ok m -> In m l /\ forall n, In n l -> (n <= m)%nat.
  Proof.
    destruct l as [|x l]; [discriminate|]. cbn [max_nat]. injection 1 as <-. revert x. induction l as [|y l IH]; intros x; cbn [fold_left]; [split; [now left|intros n [->|[]]; lia]|].
    destruct (IH (Nat.max x y)) as [A B]. split.
    - destruct A as [A|A]; [|right; now right]. rewrite <- A. destruct (Nat.max_spec x y) as [[_ ->]|[_ ->]]; [right; now left|now left].
    - intros n [->|[->|H]]; [specialize (B _ (or_introl eq_refl)); lia|specialize (B _ (or_introl eq_refl)); lia|apply B; now right].
  Qed.
Section Proofs.
  Variable sqrt : Q -> Q.
  Variables root2pi fwhm : Q.
  Variables std std0 : list Q -> val.
  Variable fit_expo : list Q -> list Q -> val -> result (Q * Q * (val * val)).
  Variable fit_gauss : list Q -> list nat -> Q * Q * Q -> option (list Q) -> result ((Q * Q * Q) * (val * val * val) * val).
  Variable fit_sigmoid : list Q -> list nat -> nat * Q * Q * nat -> list Q -> result (Q * val).

  Lemma energy_spec bins error ec : let '(m, _, _, _, _) := energy sqrt root2pi std fit_gauss ec bins error in energy_of (gauss_centre root2pi fit_gauss bins ec) ec m.
  Proof.
    unfold energy. destruct (quick_gauss_fit _ _ _ _ _ _) as [[[[[a m] s] [[ua um] us]] chi2]|e] eqn:E.
    - left. exists m. split; [reflexivity|]. unfold quick_gauss_fit in E. destruct (negb (increasing bins)); [discriminate|]. cbv zeta in E. rewrite present_numbers in E. unfold gauss_seed in E. destruct (max_nat (hist bins (numbers ec))) as [top|] eqn:T; [|discriminate]. cbn [rbind] in E.
      apply max_nat_spec in T. destruct T as [T1 T2]. set (y := hist bins (numbers ec)) in *. set (x := centres bins) in *.
      match type of E with rbind (fit_gauss _ _ _ ?sg) _ = _ => set (sigma := sg) in E end. destruct (fit_gauss x y _ sigma) as [[[[[a' m'] s'] er] ch]|] eqn:F; [|discriminate]. cbn [rbind] in E.
      destruct (_ || _)%bool eqn:D; [discriminate|]. injection E as -> -> -> -> ->. apply orb_false_iff in D. destruct D as [D D3]. apply orb_false_iff in D. destruct D as [D1 D2].
      pose proof (hist_spec bins (numbers ec)) as H. destruct (centres_spec bins) as [C1 C2]. exists x, y, top, (median x), sigma, a, s, (ua, um, us), chi2.
      assert (Ly : List.length x = List.length y) by (unfold x; rewrite C1; symmetry; apply (proj1 H)).
      split; [exact Ly|]. split; [exact C2|]. split; [exact H|]. split; [apply median_is; intros K; rewrite K in Ly; destruct y; [destruct T1|discriminate]|]. split; [exact T1|]. split; [exact T2|]. split; [exact F|].
      destruct (Qeqb_spec a (qn top * root2pi * ((2 # 100) * median x))); [discriminate|]. destruct (Qeqb_spec m (median x)); [discriminate|]. destruct (Qeqb_spec s ((2 # 100) * median x)); [discriminate|]. tauto.
    - right. cbv zeta. destruct (Nat.ltb_spec (List.length ec) 5) as [L|L]; [right|left]; (split; [exact L|]); rewrite present_numbers.
      + destruct (numbers ec); reflexivity.
      + destruct (numbers ec) as [|q l] eqn:N; cbn [ignoring_nan]; [exact N|]. rewrite N. apply median_is. discriminate.
  Qed.

  Lemma all_present {A} (f : A -> val) l : (forall e, In e l -> f e <> None) -> map f l = map Some (present (map f l)).
  Proof. induction l as [|a l IH]; intros H; [reflexivity|]. cbn. pose proof (H a (or_introl eq_refl)). destruct (f a) as [q|]; [|contradiction]. cbn. f_equal. apply IH. intros e He. apply H. now right. Qed.

  Theorem row_spec run x0 y0 shape size dtbins s1_lo s1_hi bins error s r : s <> [] -> get_time_evol_single_slice sqrt root2pi fwhm std std0 fit_expo fit_gauss fit_sigmoid run x0 y0 shape size dtbins s1_lo s1_hi bins error s = Ok r ->
    v_run r = run /\ counts_of s r /\ averages_of s s1_lo s1_hi r /\ lifetime_of fit_expo (inside x0 y0 shape size) s r /\
    energy_of (gauss_centre root2pi fit_gauss bins (map te_Ec s)) (map te_Ec s) (v_ec r) /\ energy_of (gauss_centre root2pi fit_gauss bins (map te_Ec2 s)) (map te_Ec2 s) (v_ec2 r).
  Proof.
    intros N. unfold get_time_evol_single_slice. cbv zeta. cbn beta iota.
    destruct (select_lifetime_region (map te s) x0 y0 shape size) as [region|] eqn:R; [|discriminate]. cbn [rbind]. pose proof (C63_region _ _ _ _ _ _ R) as RG.
    match goal with |- match ?x with _ => _ end = _ -> _ => destruct x as [[[e0 e0u] lt] ltu] eqn:FX end.
    destruct (compute_drift_v _ _ _ _) as [dvs|]; [|discriminate]. cbn [rbind].
    pose proof (energy_spec bins error (map te_Ec s)) as E1. destruct (energy _ _ _ _ (map te_Ec s) _ _) as [[[[ec u1] ecu] u2] chi2]. pose proof (energy_spec bins error (map te_Ec2 s)) as E2. destruct (energy _ _ _ _ (map te_Ec2 s) _ _) as [[[[ec2 sg2] ec2u] u3] chi2s].
    destruct (min_time (map te s)) as [t0|] eqn:T0; [|discriminate]. destruct (max_time (map te s)) as [t1|] eqn:T1; [|discriminate]. injection 1 as <-. cbn [v_run v_ts v_nevents v_rate v_s2e v_s1e v_means v_ec v_ec2 v_e0 v_e0u v_lt v_ltu].
    apply min_time_least in T0. apply maxQ_greatest in T1. rewrite map_map in T0, T1.
    split; [reflexivity|]. split; [|split; [|split; [|split; [exact E1|exact E2]]]].
    - split; [|split; [exact T0|]].
      + exists (nodup Z.eq_dec (map te_event s)). cbn. split; [apply NoDup_nodup|]. split; [intros x; apply nodup_In|reflexivity].
      + exists t1. split; [exact T1|]. cbn. unfold vdiv. split; intros H.
        * destruct (Qeqb_spec (t1 - t0) 0); [lra|]. eexists. split; [reflexivity|]. field. lra.
        * destruct (Qeqb_spec (t1 - t0) 0) as [|K]; [reflexivity|]. exfalso. apply K. lra.
    - split; [apply nanmean_is|]. cbn [v_means]. split; [reflexivity|]. split; [|split].
      + intros c m u H. repeat (destruct H as [H|H]; [injection H as <- <- <-; apply nanmean_is|]). destruct H.
      + cbn [v_s1e]. intros q H. set (l := filter (fun e => in_range_val (kDT (te e)) s1_lo s1_hi) s) in H. exists l. split.
        * destruct (map te_S1e l) as [|y m] eqn:K; [discriminate|]. injection H as <-. apply mean_is. discriminate.
        * intros e. unfold l. rewrite filter_In. unfold in_range_val. destruct (kDT (te e)) as [t|]; [rewrite in_range_iff|]; split; intros [A B]; (split; [exact A|]); [now exists t|destruct B as (t' & E & B); injection E as ->; exact B|discriminate|destruct B as (t' & E & B); discriminate].
      + cbn [v_s1e]. intros H e t He Et K. assert (X : In (te_S1e e) (map te_S1e (filter (fun e => in_range_val (kDT (te e)) s1_lo s1_hi) s))) by (apply in_map, filter_In; split; [assumption|]; unfold in_range_val; rewrite Et; now apply in_range_iff). destruct (map te_S1e _); [destruct X|discriminate].
    - exists region. split; [intros e; apply RG|].
      match type of FX with match ?b with _ => _ end = _ => destruct b eqn:B end.
      + rewrite forallb_forall in B. assert (D : map kDT region = map Some (present (map kDT region))) by (apply all_present; intros e He; specialize (B e He); now destruct (kDT e)). assert (S2 : map kS2e region = map Some (present (map kS2e region))) by (apply all_present; intros e He; specialize (B e He); destruct (kDT e); [now destruct (kS2e e)|discriminate]).
        destruct (fit_expo _ _ _) as [[[c mean] [uc um]]|er] eqn:FE; injection FX as <- <- <- <-; [left|right].
        * exists (present (map kDT region)), (present (map kS2e region)). do 5 eexists. split; [exact D|]. split; [exact S2|]. split; [exact FE|]. repeat split.
        * split; [|repeat split]. right. right. exists (present (map kDT region)), (present (map kS2e region)). do 2 eexists. split; [exact D|]. split; [exact S2|]. exact FE.
      + right. injection FX as <- <- <- <-. split; [|repeat split].
        assert (X : exists e, In e region /\ (kDT e = None \/ kS2e e = None)). { clear -B. induction region as [|a l IH]; [discriminate|]. cbn [forallb] in B. destruct (kDT a) eqn:E1; [|exists a; split; [now left|now left]]. destruct (kS2e a) eqn:E2; [|exists a; split; [now left|now right]]. destruct (IH B) as (e & He & H). exists e. split; [now right|exact H]. }
        destruct X as (e & He & [K|K]); [left|right; left]; rewrite <- K; now apply in_map.
  Qed.
End Proofs.

(** The table has one row per interval of time with rows of data, in order of time, and each row speaks of the rows of its interval only. *)
Theorem C99_rows sqrt root2pi fwhm std std0 fit_expo fit_gauss fit_sigmoid len run x0 y0 shape size dtbins s1_lo s1_hi bins error df rows :
  0 < len -> get_time_evol sqrt root2pi fwhm std std0 fit_expo fit_gauss fit_sigmoid len run x0 y0 shape size dtbins s1_lo s1_hi bins error df = Ok rows ->
  exists t0 ks parts, is_least (times df) t0 /\ StronglySorted lt ks /\ Permutation (concat parts) df /\
    Forall2 (fun k s => s <> [] /\ forall e, In e s <-> In e df /\ slice_number t0 len (te e) k) ks parts /\
    Forall2 (fun s r => v_run r = run /\ counts_of s r /\ averages_of s s1_lo s1_hi r /\ lifetime_of fit_expo (inside x0 y0 shape size) s r /\
      energy_of (gauss_centre root2pi fit_gauss bins (map te_Ec s)) (map te_Ec s) (v_ec r) /\ energy_of (gauss_centre root2pi fit_gauss bins (map te_Ec2 s)) (map te_Ec2 s) (v_ec2 r)) parts rows.
Proof.
  intros L H. unfold get_time_evol in H. destruct df as [|e0 df0] eqn:Ed; [discriminate|]. rewrite <- Ed in H |- *. assert (N : df <> []) by (rewrite Ed; discriminate). clear Ed. destruct (slices_spec len df L N) as (t0 & ks & T & S & F & P).
  exists t0, ks, (slices len df). repeat (split; [assumption|]). assert (Ne : Forall (fun s => s <> []) (slices len df)) by (clear -F; induction F as [|k s ks l [H _] F IH]; constructor; assumption).
  clear -H Ne. revert rows H. induction Ne as [|s l Hs Ne IH]; intros rows H; cbn [rmap] in H; [injection H as <-; constructor|].
  destruct (get_time_evol_single_slice _ _ _ _ _ _ _ _ _ _ _ _ _ _ _ _ _ _ s) as [r|] eqn:E; [|discriminate]. destruct (rmap _ l) as [rs|]; [|discriminate]. injection H as <-. constructor; [|now apply IH]. exact (row_spec _ _ _ _ _ _ _ _ _ _ _ _ _ _ _ _ _ _ _ _ Hs E).
Qed.
Print Assumptions C99_rows.

(** Data that spans a whole number of intervals: the rows with the last time are alone in the last row of the table, whose rate is not a number *)
Theorem C99_last_rate_refuted sqrt root2pi fwhm std std0 fit_expo fit_gauss fit_sigmoid len run x0 y0 shape size dtbins s1_lo s1_hi bins error df rows t0 t1 n :
  0 < len -> get_time_evol sqrt root2pi fwhm std std0 fit_expo fit_gauss fit_sigmoid len run x0 y0 shape size dtbins s1_lo s1_hi bins error df = Ok rows ->
  is_least (times df) t0 -> is_greatest (times df) t1 -> t1 == t0 + qn n * len ->
  exists r before, rows = before ++ [r] /\ v_ts r == t1 /\ v_rate r = None.
Proof.
  intros L H Least Great Span. destruct (C99_rows _ _ _ _ _ _ _ _ _ _ _ _ _ _ _ _ _ _ _ _ _ L H) as (t0' & ks & parts & Least' & S & P & F & R).
  assert (Et : t0' == t0) by (apply Qle_antisym; [apply Least', (proj1 Least)|apply Least, (proj1 Least')]).
  destruct (proj1 (in_map_iff _ _ _) (proj1 Great)) as (e1 & E1 & He1).
  assert (X : exists k s, In (k, s) (combine ks parts) /\ In e1 s).
  { assert (Hc : In e1 (concat parts)) by (eapply Permutation_in; [symmetry; exact P|exact He1]). apply in_concat in Hc. destruct Hc as (s & Hs & He). destruct (In_nth_error _ _ Hs) as (i & Hi). destruct (forall2_nth_error_r _ _ _ i _ F Hi) as (k & Hk & _).
    exists k, s. split; [|exact He]. clear -Hk Hi. revert ks parts Hk Hi. induction i as [|i IH]; intros [|a ks] [|b parts] Hk Hi; try discriminate; cbn in *; [left; congruence|right; now apply IH]. }
  destruct X as (k1 & s1 & Hk1 & Hes1).
  (* the last part *)
  destruct (exists_last (l := parts)) as (parts' & sl & Ep). { intros ->. destruct ks; cbn in Hk1; destruct Hk1. }
  rewrite Ep in F, R. apply Forall2_app_inv_r in F. destruct F as (ks' & kl' & F1 & F2 & Ek). inversion F2 as [|kl ? kk ? [Nl Pl] F3]; subst kl'. inversion F3; subst kk.
  apply Forall2_app_inv_l in R. destruct R as (rows' & rl & R1 & R2 & Er). inversion R2 as [|? r ? rr [_ [Cr _]] R3]; subst rl. inversion R3; subst rr.
  assert (All : forall e, In e sl -> ktime (te e) == t1).
  { intros e He. pose proof (proj1 (Pl e) He) as [Hd [Lo Hi]]. assert (Up : ktime (te e) <= t1) by (apply Great; now apply (in_map (fun e => ktime (te e)))).
    (* the number of the last part is n *)
    assert (Kn : forall k s, In (k, s) (combine ks parts) -> (k <= kl)%nat).
    { intros k s Hks. apply in_combine_l in Hks. rewrite Ek in Hks, S. clear -Hks S. apply in_app_iff in Hks. destruct Hks as [Hks|[->|[]]]; [|lia]. induction ks' as [|a l IH]; [destruct Hks|]. cbn in S. inversion S as [|? ? S' Fa]; subst. rewrite Forall_forall in Fa. destruct Hks as [->|Hks]; [|now apply IH]. specialize (Fa kl ltac:(apply in_app_iff; right; now left)). lia. }
    assert (K1 : (n <= k1)%nat).
    { assert (Sl1 : slice_number t0' len (te e1) k1).
      { assert (FF : Forall2 (fun k s => s <> [] /\ forall e, In e s <-> In e df /\ slice_number t0' len (te e) k) ks parts) by (rewrite Ek, Ep; apply Forall2_app; [exact F1|constructor; [split; assumption|constructor]]). clear -FF Hk1 Hes1. induction FF as [|k s ks parts [_ Q] FF IH]; [destruct Hk1|]. cbn in Hk1. destruct Hk1 as [E|Hk1]; [injection E as -> ->; apply Q; exact Hes1|now apply IH]. }
      destruct Sl1 as [_ Hi1]. rewrite E1 in Hi1. destruct (Nat.le_gt_cases n k1) as [|C]; [assumption|]. exfalso. assert (C' : (Datatypes.S k1 <= n)%nat) by lia. apply qn_le in C'. assert (qn (Datatypes.S k1) * len <= qn n * len) by (apply Qmult_le_compat_r; lra). lra. }
    specialize (Kn k1 s1 Hk1). assert (Kl : (n <= kl)%nat) by lia. apply qn_le in Kl. assert (qn n * len <= qn kl * len) by (apply Qmult_le_compat_r; lra). lra. }
  exists r, rows'. split; [exact Er|]. destruct Cr as (_ & Lr & t1' & Gr & _ & Eq).
  assert (Ts : v_ts r == t1). { destruct (proj1 (in_map_iff _ _ _) (proj1 Lr)) as (e & Ee & He). rewrite <- Ee. now apply All. }
  assert (Ts1 : t1' == t1). { destruct (proj1 (in_map_iff _ _ _) (proj1 Gr)) as (e & Ee & He). rewrite <- Ee. now apply All. }
  split; [exact Ts|]. apply Eq. lra.
Qed.
Print Assumptions C99_last_rate_refuted.

(** The uncertainty of the S1 energy is divided by the number of all the rows of the slice, not by that of the rows averaged:
    more rows out of the range of drift times make it smaller and leave the average as it was *)
Theorem C99_s1_error_refuted sqrt root2pi fwhm std std0 fit_expo fit_gauss fit_sigmoid run x0 y0 shape size dtbins s1_lo s1_hi bins error s out r r' sd :
  get_time_evol_single_slice sqrt root2pi fwhm std std0 fit_expo fit_gauss fit_sigmoid run x0 y0 shape size dtbins s1_lo s1_hi bins error s = Ok r ->
  get_time_evol_single_slice sqrt root2pi fwhm std std0 fit_expo fit_gauss fit_sigmoid run x0 y0 shape size dtbins s1_lo s1_hi bins error (s ++ out) = Ok r' ->
  (forall e t, In e out -> kDT (te e) = Some t -> ~ s1_lo <= t < s1_hi) ->
  std0 (map te_S1e (filter (fun e => in_range_val (kDT (te e)) s1_lo s1_hi) s)) = Some sd ->
  v_s1e r' = v_s1e r /\ v_s1eu r = Some (sd / sqrt (qn (List.length s))) /\ v_s1eu r' = Some (sd / sqrt (qn (List.length s + List.length out))).
Proof.
  intros H H' Out Sd.
  assert (G : forall l x, get_time_evol_single_slice sqrt root2pi fwhm std std0 fit_expo fit_gauss fit_sigmoid run x0 y0 shape size dtbins s1_lo s1_hi bins error l = Ok x ->
    v_s1e x = (match map te_S1e (filter (fun e => in_range_val (kDT (te e)) s1_lo s1_hi) l) with [] => None | q => Some (meanQ q) end) /\
    v_s1eu x = vmap (fun d => d / sqrt (qn (List.length l))) (std0 (map te_S1e (filter (fun e => in_range_val (kDT (te e)) s1_lo s1_hi) l)))).
  { clear. intros l x. unfold get_time_evol_single_slice. cbv zeta. cbn beta iota. destruct (select_lifetime_region _ _ _ _ _) as [region|]; [|discriminate]. cbn [rbind].
    match goal with |- match ?x with _ => _ end = _ -> _ => destruct x as [[[e0 e0u] lt] ltu] end. destruct (compute_drift_v _ _ _ _) as [dvs|]; [|discriminate]. cbn [rbind].
    destruct (energy _ _ _ _ (map te_Ec l) _ _) as [[[[ec u1] ecu] u2] chi2]. destruct (energy _ _ _ _ (map te_Ec2 l) _ _) as [[[[ec2 sg2] ec2u] u3] chi2s]. destruct (min_time _); [|discriminate]. destruct (max_time _); [|discriminate]. injection 1 as <-. cbn [v_s1e v_s1eu]. split; [|reflexivity]. destruct (map te_S1e _); reflexivity. }
  destruct (G _ _ H) as [A B]. destruct (G _ _ H') as [A' B']. clear G H H'.
  assert (E : filter (fun e => in_range_val (kDT (te e)) s1_lo s1_hi) (s ++ out) = filter (fun e => in_range_val (kDT (te e)) s1_lo s1_hi) s).
  { rewrite filter_app. replace (filter _ out) with (@nil tevent); [apply app_nil_r|]. clear -Out. induction out as [|e l IH]; [reflexivity|]. cbn [filter]. unfold in_range_val at 1. destruct (kDT (te e)) as [t|] eqn:Et; [|apply IH; intros e' t' He'; apply Out; now right].
    destruct (in_range t s1_lo s1_hi) eqn:R; [exfalso; apply in_range_iff in R; exact (Out e t (or_introl eq_refl) Et R)|]. apply IH. intros e' t' He'. apply Out. now right. }
  rewrite E in A', B'. rewrite Sd in B, B'. rewrite app_length in B'. rewrite A', A, B, B'. repeat split.
Qed.
Print Assumptions C99_s1_error_refuted.

(** three events in two intervals of an hour and one at the end *)
Definition xev (n : Z) (t dt s2 s1 : Q) : tevent := {| te := {| kX := Some 0; kY := Some 1; kDT := Some dt; kS2e := Some s2; ktime := t |}; te_event := n; te_S1e := s1; te_Ec := Some s2; te_Ec2 := None; te_col := fun c => match c with Xrms => None | _ => Some s2 end |}.
Definition xdata := [xev 1 100 10 50 3; xev 1 200 20 40 5; xev 2 1900 30 30 9; xev 5 3700 10 60 2].
Definition xtable := get_time_evol (fun q => q) 1 2 (fun l => Some (sumQ l)) (fun l => Some (sumQ l)) (fun _ l _ => match l with [_; _; _] => Ok (50, - 100, (Some 1, None)) | _ => Err (Other 70) end)
  (fun _ _ _ _ => Err (Other 70)) (fun _ _ _ _ => Ok (1000, Some 1)) 3600 8000 0 0 Circle 5 [0; 20; 40] 0 25 [0; 100] false xdata.
Example C99_ex : match xtable with
  | Ok [a; b] => v_nevents a = 2%nat /\ v_lt a = Some (- - 100) /\ v_lt b = None /\ v_ts b = 3700 /\ v_rate b = None /\ vmap Qred (v_rate a) = Some (1 # 900) /\ vmap Qred (v_s1e a) = Some 4 /\ v_ec a = None
  | _ => False end.
Proof. vm_compute. repeat split. Qed.
Example C99_last_ex : is_least (times xdata) 100 /\ is_greatest (times xdata) 3700 /\ 3700 == 100 + qn 1 * 3600.
Proof. split; [|split; [|reflexivity]]; (split; [cbn; tauto|]); intros x H; cbn in H; repeat (destruct H as [<-|H]; [lra|]); destruct H. Qed.
