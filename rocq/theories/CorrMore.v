(** C38 (the correction of points), C39, C56 and C62 *)
From Verif Require Import Base Arrays PeaksModel PeaksProofs BuffersProofs BuffersEvent WfmModel WfmProps PmapioProofs KrProps DbThr CorrModel CorrSpec CorrProps.
Local Open Scope Q_scope.

(** ---- C62: time evolution ---- *)
Lemma interp_spec t : forall ts ps p, length ts = length ps -> interp t ts ps = Some p -> interpolated ts ps t p.
Proof.
  induction ts as [|a ts IH]; intros [|q ps] p L H; try discriminate. destruct ts as [|b ts], ps as [|r ps]; try discriminate.
  - cbn in H. injection H as <-. destruct (Qlt_le_dec t a) as [K|K]; [left; cbn; split; lra|right; left; cbn; split; lra].
  - change (interp t (a :: b :: ts) (q :: r :: ps)) with (if Qltb t a then Some q else if Qltb t b then Some (q + (r - q) / (b - a) * (t - a)) else interp t (b :: ts) (r :: ps)) in H.
    destruct (Qltb_spec t a) as [K|K]; [injection H as <-; left; cbn; split; lra|]. destruct (Qltb_spec t b) as [K2|K2].
    + injection H as <-. right; right. exists 0%nat. cbn [nth length]. split; [lia|]. split; [lra|]. field. lra.
    + cbn in L. destruct (IH (r :: ps) p ltac:(cbn; lia) H) as [[J1 J2]|[[J1 J2]|(k & J1 & J2 & J3)]].
      * cbn [nth] in J1, J2. right; right. exists 0%nat. cbn [nth length]. split; [lia|]. split; [lra|]. assert (E : t == b) by lra. rewrite J2, E. reflexivity.
      * right; left. cbn [length] in *. replace (S (S (length ts)) - 1)%nat with (S (S (length ts) - 1)) by lia. cbn [nth]. split; assumption.
      * right; right. exists (S k). cbn [length] in *. split; [lia|]. split; assumption.
Qed.
Lemma weighted_mean_spec ps us : length ps = length us -> (forall u, In u us -> ~ u == 0) -> ~ sumQ (map (fun u => 1 / u) us) == 0 -> is_weighted_mean ps us (weighted_mean ps us).
Proof.
  intros L N Z. unfold is_weighted_mean, weighted_mean. assert (E : sumQ (map Qinv us) == sumQ (map (fun u => 1 / u) us)).
  { clear. induction us as [|u us IH]; cbn; [reflexivity|]. rewrite IH. unfold Qdiv. lra. }
  assert (E2 : sumQ (map (fun pu => fst pu * / snd pu) (combine ps us)) == sumQ (map2 (fun p u => p * (1 / u)) ps us)).
  { clear. revert us. induction ps as [|p ps IH]; intros [|u us]; cbn; try reflexivity. rewrite IH. unfold Qdiv. lra. }
  rewrite E, E2. field. assumption.
Qed.
Lemma existsb_zero us : existsb (fun u => Qeqb u 0) us = false -> forall u, In u us -> ~ u == 0.
Proof. intros H u Hu E. rewrite <- not_true_iff_false in H. apply H, existsb_exists. exists u. split; [assumption|]. now apply Qeqb_eq. Qed.
(** The factor is the quantity at that time, on the straight line between the neighbouring entries of the table, over its weighted mean. *)
Theorem C62_time_factor ts ps us t f : length ts = length ps -> length ps = length us -> time_coef ts ps us t = Ok f -> time_factor ts ps us t f.
Proof.
  intros L1 L2. unfold time_coef. destruct (existsb _ us) eqn:Eu; [discriminate|]. destruct (Qeqb_spec (sumQ (map (fun u => 1 / u) us)) 0) as [Z|Z]; [discriminate|]. destruct (Qeqb_spec (weighted_mean ps us) 0) as [M|M]; [discriminate|].
  destruct (interp t ts ps) as [p|] eqn:Ei; [|discriminate]. injection 1 as <-. exists p, (weighted_mean ps us). split; [now apply interp_spec|]. split; [|split; [assumption|field; assumption]]. apply weighted_mean_spec; [assumption| |assumption]. now apply existsb_zero.
Qed.
Print Assumptions C62_time_factor.
(** It exists for every time. *)
Theorem C62_total ts ps us t : ts <> [] -> length ts = length ps -> length ps = length us -> (forall u, In u us -> 0 < u) -> (forall p, In p ps -> 0 < p) -> exists f, time_coef ts ps us t = Ok f.
Proof.
  intros N L1 L2 U P. unfold time_coef.
  assert (Eu : existsb (fun u => Qeqb u 0) us = false). { apply not_true_iff_false. intros H. apply existsb_exists in H. destruct H as (u & H1 & H2). apply Qeqb_eq in H2. apply U in H1. lra. }
  rewrite Eu. assert (I : forall u, 0 < u -> 0 < 1 / u) by (intros u Hu; apply Qlt_shift_div_l; lra).
  assert (Z : 0 < sumQ (map (fun u => 1 / u) us)).
  { assert (Nu : us <> []) by (destruct ts, ps, us; try discriminate; congruence). clear - Nu U I. destruct us as [|u us]; [contradiction|]. clear Nu. cbn [map sumQ]. assert (A : 0 < 1 / u) by (apply I, U; now left). assert (B : 0 <= sumQ (map (fun u => 1 / u) us)).
    { change (0 <= sumF (fun u => 1 / u) us). apply sumF_nonneg. intros v Hv. apply Qlt_le_weak, I, U. now right. } lra. }
  destruct (Qeqb_spec (sumQ (map (fun u => 1 / u) us)) 0) as [K|_]; [lra|].
  assert (M : 0 < weighted_mean ps us).
  { unfold weighted_mean. apply Qlt_shift_div_l; [assumption|]. ring_simplify. assert (Np : ps <> []) by (destruct ts, ps; try discriminate; congruence). clear Z L1 Eu N. destruct ps as [|p ps]; [contradiction|]. destruct us as [|u us]; [discriminate|]. clear Np. cbn [map2 sumQ].
    assert (A : 0 < p * (1 / u)) by (apply Qmult_lt_0_compat; [apply P; now left|apply I, U; now left]). assert (B : 0 <= sumQ (map2 (fun p u => p * (1 / u)) ps us)); [|lra].
    assert (P' : forall p, In p ps -> 0 < p) by (intros; apply P; now right). assert (U' : forall u, In u us -> 0 < u) by (intros; apply U; now right). clear - P' U' I. revert us U'. induction ps as [|p ps IH]; intros [|u us] U'; cbn; try lra.
    assert (A : 0 < p * (1 / u)) by (apply Qmult_lt_0_compat; [apply P'; now left|apply I, U'; now left]). specialize (IH ltac:(intros; apply P'; now right) us ltac:(intros; apply U'; now right)). lra. }
  destruct (Qeqb_spec (weighted_mean ps us) 0) as [K|_]; [lra|].
  assert (Ei : exists p, interp t ts ps = Some p).
  { clear - N L1. revert ps L1. induction ts as [|a ts IH]; intros [|q ps] L; try discriminate; [contradiction|]. destruct ts as [|b ts], ps as [|r ps]; try discriminate; [now exists q|].
    change (interp t (a :: b :: ts) (q :: r :: ps)) with (if Qltb t a then Some q else if Qltb t b then Some (q + (r - q) / (b - a) * (t - a)) else interp t (b :: ts) (r :: ps)). destruct (Qltb t a); [eauto|]. destruct (Qltb t b); [eauto|]. apply IH; [discriminate|cbn in *; lia]. }
  destruct Ei as (p & ->). eauto.
Qed.
Print Assumptions C62_total.
(** At the times of the table it gives the entries of the table, so the weighted mean of the factors is 1. *)
Lemma interp_at : forall ts ps k, length ts = length ps -> StronglySorted Qlt ts -> (k < length ts)%nat -> exists p, interp (nth k ts 0) ts ps = Some p /\ p == nth k ps 0.
Proof.
  induction ts as [|a ts IH]; intros [|q ps] k L S H; try discriminate; [cbn in H; lia|]. apply StronglySorted_inv in S. destruct S as [S1 S2]. destruct ts as [|b ts], ps as [|r ps]; try discriminate.
  - destruct k; [|cbn in H; lia]. exists q. split; reflexivity.
  - change (interp (nth k (a :: b :: ts) 0) (a :: b :: ts) (q :: r :: ps)) with (if Qltb (nth k (a :: b :: ts) 0) a then Some q else if Qltb (nth k (a :: b :: ts) 0) b then Some (q + (r - q) / (b - a) * (nth k (a :: b :: ts) 0 - a)) else interp (nth k (a :: b :: ts) 0) (b :: ts) (r :: ps)).
    pose proof (Forall_inv S2) as Hab. destruct k as [|k]; cbn [nth].
    + destruct (Qltb_spec a a); [lra|]. destruct (Qltb_spec a b); [|lra]. eexists. split; [reflexivity|]. unfold Qminus at 3. rewrite Qplus_opp_r. lra.
    + assert (Hk : (k < length (b :: ts))%nat) by (cbn in *; lia). assert (B : b <= nth k (b :: ts) 0). { destruct k as [|k]; cbn [nth]; [lra|]. apply StronglySorted_inv in S1. destruct S1 as [_ S1]. rewrite Forall_forall in S1. apply Qlt_le_weak, S1, nth_In. cbn in Hk. lia. }
      change (match k with 0%nat => b | S m => nth m ts 0 end) with (nth k (b :: ts) 0). change (match k with 0%nat => r | S m => nth m ps 0 end) with (nth k (r :: ps) 0).
      destruct (Qltb_spec (nth k (b :: ts) 0) a); [lra|]. destruct (Qltb_spec (nth k (b :: ts) 0) b); [lra|]. apply IH; [cbn in *; lia|assumption|assumption].
Qed.
Theorem C62_mean_one ts ps us fs : length ts = length ps -> length ps = length us -> StronglySorted Qlt ts -> rmap (time_coef ts ps us) ts = Ok fs -> ts <> [] -> is_weighted_mean fs us 1.
Proof.
  intros L1 L2 S H N. destruct (rmap_nth_ok _ _ _ H) as [L3 R].
  assert (G : existsb (fun u => Qeqb u 0) us = false /\ ~ sumQ (map (fun u => 1 / u) us) == 0 /\ ~ weighted_mean ps us == 0).
  { destruct ts as [|a ts]; [contradiction|]. cbn in H. unfold time_coef at 1 in H. destruct (existsb _ us); [discriminate|]. destruct (Qeqb_spec (sumQ (map (fun u => 1 / u) us)) 0); [discriminate|]. destruct (Qeqb_spec (weighted_mean ps us) 0); [discriminate|]. auto. }
  destruct G as (G1 & G2 & G3). set (m := weighted_mean ps us) in *. pose proof (weighted_mean_spec ps us L2 (existsb_zero _ G1) G2) as W. fold m in W. unfold is_weighted_mean in *.
  assert (F : forall k, (k < length ts)%nat -> nth k fs 0 == nth k ps 0 / m).
  { intros k Hk. destruct (R k (nth k ts 0)) as (b & Hb & Hf); [now apply nth_error_nth'|]. rewrite (nth_error_nth _ _ _ Hb). unfold time_coef in Hf. rewrite G1 in Hf. destruct (Qeqb_spec (sumQ (map (fun u => 1 / u) us)) 0); [contradiction|]. fold m in Hf. destruct (Qeqb_spec m 0); [contradiction|].
    destruct (interp_at ts ps k L1 S Hk) as (p & Ep & Hp). rewrite Ep in Hf. injection Hf as <-. now rewrite Hp. }
  assert (E : sumQ (map (fun pu => fst pu * / snd pu) (combine fs us)) * m == sumQ (map (fun pu => fst pu * / snd pu) (combine ps us))).
  { assert (L : length fs = length ps) by lia. assert (F' : forall k, (k < length ps)%nat -> nth k fs 0 == nth k ps 0 / m) by (intros; apply F; lia). clear - L L2 F' G3. clearbody m. revert ps us L L2 F'. induction fs as [|f fs IH]; intros [|p ps] [|u us] L L2 F'; try discriminate; cbn; [lra|].
    rewrite Qmult_plus_distr_l, (IH ps us) by (try (cbn in *; lia); intros k Hk; apply (F' (S k)); cbn; lia). pose proof (F' 0%nat ltac:(cbn; lia)) as F0. cbn in F0. rewrite F0. assert (X : p / m * / u * m == p * / u) by (unfold Qdiv; rewrite <- !Qmult_assoc, (Qmult_comm (/ u) m), (Qmult_assoc (/ m)), (Qmult_comm (/ m) m), Qmult_inv_r by assumption; lra). lra. }
  rewrite <- E in W. apply (Qmult_inj_r _ _ m); [assumption|]. lra.
Qed.
Print Assumptions C62_mean_one.
(** The quantity stays between the bounds of the table. *)
Theorem C62_bounds ts ps t p lo hi : length ts = length ps -> ts <> [] -> StronglySorted Qlt ts -> interpolated ts ps t p -> (forall q, In q ps -> lo <= q <= hi) -> lo <= p <= hi.
Proof.
  intros L N S H B. assert (Lp : (0 < length ps)%nat) by (destruct ts; [contradiction|cbn in L; lia]). destruct H as [[_ H]|[[_ H]|(k & K1 & K2 & K3)]].
  - rewrite H. apply B, nth_In. lia.
  - rewrite H. apply B, nth_In. lia.
  - assert (I1 : In (nth k ps 0) ps) by (apply nth_In; lia). assert (I2 : In (nth (Datatypes.S k) ps 0) ps) by (apply nth_In; lia). pose proof (B _ I1) as B1. pose proof (B _ I2) as B2.
    assert (D : nth k ts 0 < nth (Datatypes.S k) ts 0).
    { clear - S K1. revert k K1. induction S as [|a ts S IH F]; intros k K1; [cbn in K1; lia|]. destruct k as [|k]; [|apply IH; cbn in K1; lia]. cbn [nth]. rewrite Forall_forall in F. apply F, nth_In. cbn in K1. lia. }
    set (a := nth k ts 0) in *. set (b := nth (Datatypes.S k) ts 0) in *. set (q := nth k ps 0) in *. set (r := nth (Datatypes.S k) ps 0) in *.
    assert (E : (p - lo) * (b - a) == (q - lo) * (b - t) + (r - lo) * (t - a)) by nra. assert (E2 : (hi - p) * (b - a) == (hi - q) * (b - t) + (hi - r) * (t - a)) by nra.
    assert (0 <= (q - lo) * (b - t)) by (apply Qmult_le_0_compat; lra). assert (0 <= (r - lo) * (t - a)) by (apply Qmult_le_0_compat; lra). assert (0 <= (hi - q) * (b - t)) by (apply Qmult_le_0_compat; lra). assert (0 <= (hi - r) * (t - a)) by (apply Qmult_le_0_compat; lra).
    split; [apply Qnot_lt_le; intros X; assert (0 < (lo - p) * (b - a)) by (apply Qmult_lt_0_compat; lra); lra|apply Qnot_lt_le; intros X; assert (0 < (p - hi) * (b - a)) by (apply Qmult_lt_0_compat; lra); lra].
Qed.
Print Assumptions C62_bounds.
Example C62_ex : time_coef [1; 2; 3] [10; 20; 30] [1; 1; 1] (3 # 2) = Ok ((10 + (20 - 10) / (2 - 1) * ((3 # 2) - 1)) / weighted_mean [10; 20; 30] [1; 1; 1]) /\ ((10 + (20 - 10) / (2 - 1) * ((3 # 2) - 1)) / weighted_mean [10; 20; 30] [1; 1; 1] == 3 # 4) /\
  StronglySorted Qlt [1; 2; 3].
Proof. split; [vm_compute; reflexivity|]. split; [vm_compute; reflexivity|]. repeat constructor. Qed.

(** ---- C38: the factor of every point ---- *)
Definition table_ok (v : evolution) : Prop := length (ev_ts v) = length (ev_e0 v) /\ length (ev_e0 v) = length (ev_e0u v) /\ length (ev_lt v) = length (ev_e0 v) /\ length (ev_ltu v) = length (ev_e0 v).
Lemma point_factor_spec exp norm me ml ev p f : (0 < nx (sm_info me))%nat -> (0 < ny (sm_info me))%nat -> shape (sm_info me) (sm_e0 me) -> (0 < nx (sm_info ml))%nat -> (0 < ny (sm_info ml))%nat -> shape (sm_info ml) (sm_lt ml) ->
  (forall v, ev = Some v -> table_ok v) -> point_factor exp norm me ml ev p = Ok f -> corrects exp me ml ev norm p f.
Proof.
  intros X1 Y1 S1 X2 Y2 S2 T H. unfold point_factor in H. destruct (coefficient_ok _ _ (px p, py p) X1 Y1 S1) as (e & Ee & He). destruct (coefficient_ok _ _ (px p, py p) X2 Y2 S2) as (l & El & Hl). rewrite Ee in H. cbn [rbind] in H.
  destruct (match ev with Some v => time_coef (ev_ts v) (ev_e0 v) (ev_e0u v) (pt p) | None => Ok 1 end) as [fe|] eqn:Fe; [|discriminate]. cbn [rbind] in H. rewrite El in H. cbn [rbind] in H.
  destruct (match ev with Some v => time_coef (ev_ts v) (ev_lt v) (ev_ltu v) (pt p) | None => Ok 1 end) as [fl|] eqn:Fl; [|discriminate]. cbn [rbind] in H.
  exists e, l, fe, fl. split; [assumption|]. split; [assumption|]. split.
  - destruct ev as [v|]; [|split; congruence]. destruct (T v eq_refl) as (T1 & T2 & T3 & T4). split; [apply C62_time_factor; try assumption; congruence|apply C62_time_factor; try assumption; congruence].
  - unfold factor in H. destruct norm as [n|], e as [e|], l as [l|]; try (now injection H as <-). destruct (Qeqb_spec (e * fe) 0) as [|Ne]; [discriminate|]. destruct (Qeqb_spec (l * fl) 0); [discriminate|]. cbn [orb] in H. injection H as <-. eexists. split; [reflexivity|]. set (x := e * fe) in *. clearbody x. set (y := exp _). field. assumption.
Qed.
(** Every point gets normalization, energy and lifetime factors of its own bins and time; the table of times is used if it was asked for. *)
Theorem C38_factor exp me ml mt temp s ps out :
  (0 < nx (sm_info me))%nat -> (0 < ny (sm_info me))%nat -> shape (sm_info me) (sm_e0 me) -> (0 < nx (sm_info ml))%nat -> (0 < ny (sm_info ml))%nat -> shape (sm_info ml) (sm_lt ml) ->
  (forall m v, mt = Some m -> sm_evol m = Some v -> table_ok v) ->
  apply_all_correction_single_maps exp me ml mt temp s ps = Ok out ->
  exists norm ev, normalizes (sm_info me) (sm_e0 me) s (Ok norm) /\ (if temp then exists m v, mt = Some m /\ sm_evol m = Some v /\ ev = Some v else ev = None) /\ Forall2 (corrects exp me ml ev norm) ps out.
Proof.
  intros X1 Y1 S1 X2 Y2 S2 T H. unfold apply_all_correction_single_maps in H. pose proof (C38_normalization _ _ s S1) as N. destruct (normalization_factor _ _ s) as [norm|]; [|discriminate]. cbn [rbind] in H. exists norm.
  assert (G : forall ev, (forall v, ev = Some v -> table_ok v) -> rmap (point_factor exp norm me ml ev) ps = Ok out -> Forall2 (corrects exp me ml ev norm) ps out).
  { intros ev Hev E. apply rmap_forall2 in E. eapply Forall2_mono; [|exact E]. intros p f _ K. now apply point_factor_spec. }
  destruct temp.
  - destruct mt as [[i0 g1 g2 [v|]]|]; [|discriminate|discriminate]. exists (Some v). split; [assumption|]. split; [eexists; exists v; split; [reflexivity|split; reflexivity]|]. apply G; [|assumption]. intros v' E. injection E as <-. eapply T; reflexivity.
  - exists None. split; [assumption|]. split; [reflexivity|]. apply G; [discriminate|assumption].
Qed.
Print Assumptions C38_factor.
(** Asking for the time evolution without a table is an error, and so is an unusable normalization; otherwise, with maps without zeros, every list of points is corrected. *)
Theorem C38_missing_table exp me ml mt s ps norm : normalization_factor (sm_info me) (sm_e0 me) s = Ok norm -> (forall m, mt = Some m -> sm_evol m = None) -> apply_all_correction_single_maps exp me ml mt true s ps = Err time_evolution_table_missing.
Proof. intros N M. unfold apply_all_correction_single_maps. rewrite N. cbn. destruct mt as [[i0 g1 g2 [v|]]|]; try reflexivity. specialize (M _ eq_refl). discriminate. Qed.
Print Assumptions C38_missing_table.
Theorem C38_corrected exp me ml mt s ps norm :
  (0 < nx (sm_info me))%nat -> (0 < ny (sm_info me))%nat -> shape (sm_info me) (sm_e0 me) -> (0 < nx (sm_info ml))%nat -> (0 < ny (sm_info ml))%nat -> shape (sm_info ml) (sm_lt ml) ->
  (forall row q, In row (sm_e0 me) -> In (Some q) row -> ~ q == 0) -> (forall row q, In row (sm_lt ml) -> In (Some q) row -> ~ q == 0) -> normalization_factor (sm_info me) (sm_e0 me) s = Ok norm ->
  exists out, apply_all_correction_single_maps exp me ml mt false s ps = Ok out.
Proof.
  intros X1 Y1 S1 X2 Y2 S2 Z1 Z2 N. unfold apply_all_correction_single_maps. rewrite N. cbn [rbind]. apply rmap_all_ok. intros p _. unfold point_factor.
  assert (C : forall i m v, looked_up i m (px p, py p) v -> shape i m -> (forall row q, In row m -> In (Some q) row -> ~ q == 0) -> forall q, v = Some q -> ~ q == 0).
  { intros i m v [(x & y & kx & ky & _ & Bx & By & ->)|[_ ->]] [Sa Sb] Z q E; [|discriminate]. assert (Ly : (ky < length m)%nat) by (rewrite Sa; apply By). assert (R : In (nth ky m []) m) by now apply nth_In. apply (Z _ q R). rewrite <- E. apply nth_In. rewrite Forall_forall in Sb. rewrite (Sb _ R). apply Bx. }
  destruct (coefficient_ok _ _ (px p, py p) X1 Y1 S1) as (e & -> & He). destruct (coefficient_ok _ _ (px p, py p) X2 Y2 S2) as (l & El & Hl). cbn [rbind]. rewrite El. cbn [rbind]. unfold factor. destruct norm as [n|], e as [e|], l as [l|]; eauto.
  pose proof (C _ _ _ He S1 Z1 e eq_refl). pose proof (C _ _ _ Hl S2 Z2 l eq_refl). destruct (Qeqb_spec (e * 1) 0); [lra|]. destruct (Qeqb_spec (l * 1) 0); [lra|]. cbn. eauto.
Qed.
Print Assumptions C38_corrected.
Definition map_ex : sector_map := {| sm_info := info_ex; sm_e0 := grid_ex2; sm_lt := [[Some 1; Some 2]]; sm_evol := None |}.
Example C38_factor_ex : (0 < nx (sm_info map_ex))%nat /\ (0 < ny (sm_info map_ex))%nat /\ shape (sm_info map_ex) (sm_e0 map_ex) /\ shape (sm_info map_ex) (sm_lt map_ex) /\
  apply_all_correction_single_maps (fun z => 1 + z) map_ex map_ex None false SMax [{| px := Some 1; py := Some 1; pz := 4; pt := 0 |}; {| px := Some 9; py := Some 1; pz := 4; pt := 0 |}] = Ok [Some (1 / (7 * 1) * (1 + 4 / (2 * 1)) * 7); None].
Proof. repeat split; cbn; try lia; repeat constructor. Qed.

(** ---- C39: selections ---- *)
Lemma select_inv l (p : krow -> bool) sel e : rbind (eff_of_selection l (filter p l)) (fun e => Ok (filter p l, e)) = Ok (sel, e) -> sel = filter p l /\ eff_of_selection l sel = Ok e.
Proof. destruct (eff_of_selection l (filter p l)) as [q|] eqn:E; cbn; [|discriminate]. intros H. injection H as <- <-. auto. Qed.
Lemma events_of_nodup l : events_of l (nodup Z.eq_dec (map k_event l)).
Proof. split; [apply NoDup_nodup|]. intros z. rewrite nodup_In, in_map_iff. split; intros (r & H1 & H2); exists r; auto. Qed.
Lemma eff_fraction before after e : incl after before -> eff_of_selection before after = Ok e -> fraction before after e.
Proof.
  intros I. unfold eff_of_selection. destruct (Nat.eqb_spec (n_events before) 0) as [|N]; [discriminate|]. injection 1 as <-. exists (nodup Z.eq_dec (map k_event before)), (nodup Z.eq_dec (map k_event after)). split; [apply events_of_nodup|]. split; [apply events_of_nodup|].
  split; [intros E; apply N; unfold n_events; now rewrite E|]. split; [intros z Hz; apply nodup_In in Hz; apply nodup_In; apply in_map_iff in Hz; destruct Hz as (r & <- & Hr); apply in_map, I, Hr|]. fold (n_events before) (n_events after). field. assert (0 < qn (n_events before)) by (apply qn_pos; lia). lra.
Qed.
Lemma eff_chain a b c e f t : eff_of_selection a b = Ok e -> eff_of_selection b c = Ok f -> eff_of_selection a c = Ok t -> e * f == t.
Proof.
  unfold eff_of_selection. destruct (Nat.eqb_spec (n_events a) 0) as [|N]; [discriminate|]. destruct (Nat.eqb_spec (n_events b) 0) as [|M]; [discriminate|]. intros H1 H2 H3. injection H1 as <-. injection H2 as <-. injection H3 as <-.
  assert (0 < qn (n_events a)) by (apply qn_pos; lia). assert (0 < qn (n_events b)) by (apply qn_pos; lia). field. split; lra.
Qed.
Lemma eff_ok a b : (n_events a <> 0)%nat -> exists e, eff_of_selection a b = Ok e.
Proof. intros H. unfold eff_of_selection. destruct (Nat.eqb_spec (n_events a) 0); [contradiction|eauto]. Qed.
Lemma eff_nonzero a b e : eff_of_selection a b = Ok e -> (n_events a <> 0)%nat.
Proof. unfold eff_of_selection. destruct (Nat.eqb_spec (n_events a) 0); [discriminate|auto]. Qed.
Lemma n_events_zero l : n_events l = 0%nat <-> l = [].
Proof.
  split; [|intros ->; reflexivity]. unfold n_events. intros H. apply length_zero_iff_nil in H. destruct l as [|r l]; [reflexivity|]. exfalso. assert (I : In (k_event r) (nodup Z.eq_dec (map k_event (r :: l)))) by (apply nodup_In; now left). rewrite H in I. destruct I.
Qed.
Definition cut (col low high : krow -> val) (r : krow) : bool := match low r, high r with Some a, Some b => in_range_val (col r) a b | _, _ => false end.
Definition alone (l : list krow) (r : krow) : bool := (length (filter (fun r' => (k_event r' =? k_event r)%Z) l) =? 1)%nat.
Section Sel.
  Variables (low upp : Q -> Q) (lx hx ls hs rmax ld hd ln hn : Q) (kdst : list krow).
  Definition b1 := cut (fun r => vmap (fun z => z * z) (k_zrms r)) (fun r => vmap low (k_dt r)) (fun r => vmap upp (k_dt r)).
  Definition b2 := cut k_ec (fun _ => Some lx) (fun _ => Some hx).
  Definition b3 := cut k_s2t (fun _ => Some ls) (fun _ => Some hs).
  Definition b5 := cut k_r (fun _ => Some 0) (fun _ => Some rmax).
  Definition b6 := cut k_dt (fun _ => Some ld) (fun _ => Some hd).
  Definition b7 := cut k_nsipm (fun _ => Some ln) (fun _ => Some hn).
  Definition d1 := filter b1 kdst.
  Definition d2 := filter b2 d1.
  Definition d3 := filter b3 d2.
  Definition d4 := filter (alone d3) d3.
  Definition d5 := filter b5 d4.
  Definition d6 := filter b6 d5.
  Definition d7 := filter b7 d6.
  Notation run := (apply_selections kdst low upp lx hx ls hs rmax ld hd ln hn).
  Lemma select_unfold l col lo hi : select_var_inrange l col lo hi = rbind (eff_of_selection l (filter (cut col lo hi) l)) (fun e => Ok (filter (cut col lo hi) l, e)).
  Proof. reflexivity. Qed.
  Lemma run_inv final eff : run = Ok (final, eff) ->
    eff_of_selection kdst d1 = Ok (eff_band eff) /\ eff_of_selection d1 d2 = Ok (eff_xrays eff) /\ eff_of_selection d2 d3 = Ok (eff_s2t eff) /\ eff_of_selection d3 d4 = Ok (eff_s1s2 eff) /\
    eff_of_selection d4 d5 = Ok (eff_rmax eff) /\ eff_of_selection d5 d6 = Ok (eff_dt eff) /\ eff_of_selection d6 d7 = Ok (eff_nsipm eff) /\ eff_of_selection kdst d7 = Ok (eff_total eff) /\ final = d7.
  Proof.
    unfold apply_selections. rewrite select_unfold. fold b1. change (filter b1 kdst) with d1. destruct (eff_of_selection kdst d1) as [e1|] eqn:E1; [|discriminate]. cbn [rbind].
    rewrite select_unfold. fold b2. change (filter b2 d1) with d2. destruct (eff_of_selection d1 d2) as [e2|] eqn:E2; [|discriminate]. cbn [rbind].
    rewrite select_unfold. fold b3. change (filter b3 d2) with d3. destruct (eff_of_selection d2 d3) as [e3|] eqn:E3; [|discriminate]. cbn [rbind].
    unfold select_1S1_1S2. change (filter _ d3) with d4. destruct (eff_of_selection d3 d4) as [e4|] eqn:E4; [|discriminate]. cbn [rbind].
    rewrite select_unfold. fold b5. change (filter b5 d4) with d5. destruct (eff_of_selection d4 d5) as [e5|] eqn:E5; [|discriminate]. cbn [rbind].
    rewrite select_unfold. fold b6. change (filter b6 d5) with d6. destruct (eff_of_selection d5 d6) as [e6|] eqn:E6; [|discriminate]. cbn [rbind].
    rewrite select_unfold. fold b7. change (filter b7 d6) with d7. destruct (eff_of_selection d6 d7) as [e7|] eqn:E7; [|discriminate]. cbn [rbind].
    destruct (eff_of_selection kdst d7) as [t|] eqn:Et; [|discriminate]. cbn [rbind]. intros H. injection H as <- <-. cbn. auto 10.
  Qed.
  Lemma run_ok : d6 <> [] -> exists final eff, run = Ok (final, eff).
  Proof.
    intros H6. assert (N6 : n_events d6 <> 0%nat) by (intros K; now apply n_events_zero in K).
    assert (Up : forall l p, n_events (filter p l) <> 0%nat -> n_events l <> 0%nat) by (intros l p H K; apply H; apply n_events_zero in K; now rewrite K).
    pose proof (Up d5 b6 N6) as N5. pose proof (Up d4 b5 N5) as N4. pose proof (Up d3 _ N4) as N3. pose proof (Up d2 b3 N3) as N2. pose proof (Up d1 b2 N2) as N1. pose proof (Up kdst b1 N1) as N0.
    destruct (eff_ok kdst d1 N0) as (e1 & E1). destruct (eff_ok d1 d2 N1) as (e2 & E2). destruct (eff_ok d2 d3 N2) as (e3 & E3). destruct (eff_ok d3 d4 N3) as (e4 & E4). destruct (eff_ok d4 d5 N4) as (e5 & E5). destruct (eff_ok d5 d6 N5) as (e6 & E6). destruct (eff_ok d6 d7 N6) as (e7 & E7). destruct (eff_ok kdst d7 N0) as (t & Et).
    unfold apply_selections. rewrite select_unfold. fold b1. change (filter b1 kdst) with d1. rewrite E1. cbn [rbind]. rewrite select_unfold. fold b2. change (filter b2 d1) with d2. rewrite E2. cbn [rbind].
    rewrite select_unfold. fold b3. change (filter b3 d2) with d3. rewrite E3. cbn [rbind]. unfold select_1S1_1S2. change (filter _ d3) with d4. rewrite E4. cbn [rbind].
    rewrite select_unfold. fold b5. change (filter b5 d4) with d5. rewrite E5. cbn [rbind]. rewrite select_unfold. fold b6. change (filter b6 d5) with d6. rewrite E6. cbn [rbind]. rewrite select_unfold. fold b7. change (filter b7 d6) with d7. rewrite E7. cbn [rbind]. rewrite Et. cbn. eauto.
  Qed.
  Lemma run_err : d6 = [] -> run = Err ZeroDivisionError.
  Proof.
    intros H6. destruct run as [[final eff]|e] eqn:E; [|].
    - exfalso. apply run_inv in E. destruct E as (_ & _ & _ & _ & _ & _ & E & _). apply eff_nonzero in E. apply E, n_events_zero, H6.
    - f_equal. revert E. assert (Z : forall a b e', eff_of_selection a b = Err e' -> e' = ZeroDivisionError) by (intros a b e'; unfold eff_of_selection; destruct (n_events a =? 0)%nat; congruence).
      unfold apply_selections. rewrite select_unfold. fold b1. change (filter b1 kdst) with d1. destruct (eff_of_selection kdst d1) as [e1|] eqn:E1; [|intros X; injection X as <-; eapply Z; eassumption]. cbn [rbind].
      rewrite select_unfold. fold b2. change (filter b2 d1) with d2. destruct (eff_of_selection d1 d2) as [e2|] eqn:E2; [|intros X; injection X as <-; eapply Z; eassumption]. cbn [rbind].
      rewrite select_unfold. fold b3. change (filter b3 d2) with d3. destruct (eff_of_selection d2 d3) as [e3|] eqn:E3; [|intros X; injection X as <-; eapply Z; eassumption]. cbn [rbind].
      unfold select_1S1_1S2. change (filter _ d3) with d4. destruct (eff_of_selection d3 d4) as [e4|] eqn:E4; [|intros X; injection X as <-; eapply Z; eassumption]. cbn [rbind].
      rewrite select_unfold. fold b5. change (filter b5 d4) with d5. destruct (eff_of_selection d4 d5) as [e5|] eqn:E5; [|intros X; injection X as <-; eapply Z; eassumption]. cbn [rbind].
      rewrite select_unfold. fold b6. change (filter b6 d5) with d6. destruct (eff_of_selection d5 d6) as [e6|] eqn:E6; [|intros X; injection X as <-; eapply Z; eassumption]. cbn [rbind].
      rewrite select_unfold. fold b7. change (filter b7 d6) with d7. destruct (eff_of_selection d6 d7) as [e7|] eqn:E7; [|intros X; injection X as <-; eapply Z; eassumption]. cbn [rbind].
      destruct (eff_of_selection kdst d7) as [t|] eqn:Et; [discriminate|]. intros X; injection X as <-; eapply Z; eassumption.
  Qed.
End Sel.
Lemma cut_within col a b r : cut col (fun _ => Some a) (fun _ => Some b) r = true <-> within (col r) a b.
Proof. unfold cut, in_range_val, within. destruct (col r) as [q|]; [rewrite in_range_iff; split; [intros H; now exists q|intros (q' & E & H); now injection E as <-]|split; [discriminate|intros (q' & E & _); discriminate]]. Qed.
Lemma cut_band low upp r : b1 low upp r = true <-> in_band low upp r.
Proof.
  unfold b1, cut, in_band. destruct (k_zrms r) as [z|], (k_dt r) as [d|]; cbn [vmap in_range_val].
  - rewrite in_range_iff. split; [intros H; now exists z, d|intros (z' & d' & E & E' & H); injection E as <-; now injection E' as <-].
  - split; [discriminate|intros (z' & d' & _ & E & _); discriminate].
  - split; [discriminate|intros (z' & d' & E & _); discriminate].
  - split; [discriminate|intros (z' & d' & E & _); discriminate].
Qed.
Lemma in_d3 low upp lx hx ls hs kdst r : In r (d3 low upp lx hx ls hs kdst) <-> In r kdst /\ early_cuts low upp lx hx ls hs r.
Proof. unfold d3, d2, d1, early_cuts. rewrite !filter_In, cut_band. unfold b2, b3. rewrite !cut_within. tauto. Qed.
(** the row passes the cuts and it is the only one of its event that passes the early ones *)
Definition only_one (P : krow -> Prop) (kdst : list krow) (r : krow) : Prop := exists pre post, kdst = pre ++ r :: post /\ forall r', In r' (pre ++ post) -> P r' -> k_event r' <> k_event r.
Lemma alone_only p (P : krow -> Prop) kdst r : (forall x, p x = true <-> P x) -> In r (filter p kdst) -> (alone (filter p kdst) r = true <-> only_one P kdst r).
Proof.
  intros HP Hr. unfold alone. rewrite Nat.eqb_eq. apply filter_In in Hr. destruct Hr as [Hr Pr]. split.
  - intros H. apply in_split in Hr. destruct Hr as (pre & post & ->). exists pre, post. split; [reflexivity|]. intros r' H1 H2 E. rewrite filter_app in H. cbn [filter] in H. rewrite Pr in H. rewrite filter_app in H. cbn [filter] in H. rewrite Z.eqb_refl in H. rewrite app_length in H. cbn [length] in H.
    assert (L : filter (fun x => (k_event x =? k_event r)%Z) (filter p (pre ++ post)) = []). { rewrite filter_app, filter_app. apply length_zero_iff_nil. rewrite app_length. lia. }
    assert (I : In r' (filter (fun x => (k_event x =? k_event r)%Z) (filter p (pre ++ post)))). { apply filter_In. split; [apply filter_In; split; [assumption|now apply HP]|]. now apply Z.eqb_eq. } rewrite L in I. destruct I.
  - intros (pre & post & -> & H). rewrite filter_app. cbn [filter]. rewrite Pr. rewrite filter_app. cbn [filter]. rewrite Z.eqb_refl. rewrite app_length. cbn [length].
    assert (L : forall l, (forall r', In r' l -> In r' (pre ++ post)) -> filter (fun x => (k_event x =? k_event r)%Z) (filter p l) = []).
    { intros l Hl. apply filter_none_in. intros x Hx. apply filter_In in Hx. destruct Hx as [X1 X2]. apply Z.eqb_neq. apply H; [now apply Hl|now apply HP]. }
    rewrite !L; [reflexivity| |]; intros; apply in_or_app; auto.
Qed.
Lemma in_d4 low upp lx hx ls hs kdst r : In r (d4 low upp lx hx ls hs kdst) <-> In r kdst /\ early_cuts low upp lx hx ls hs r /\ only_one (early_cuts low upp lx hx ls hs) kdst r.
Proof.
  unfold d4. rewrite filter_In. assert (E : d3 low upp lx hx ls hs kdst = filter (fun x => b1 low upp x && (b2 lx hx x && b3 ls hs x)) kdst).
  { unfold d3, d2, d1. induction kdst as [|x l IH]; [reflexivity|]. cbn [filter]. destruct (b1 low upp x) eqn:B1; cbn [filter andb]; [|exact IH]. destruct (b2 lx hx x) eqn:B2; cbn [filter andb]; [|exact IH]. destruct (b3 ls hs x); cbn [filter]; now rewrite IH. }
  assert (P : forall x, b1 low upp x && (b2 lx hx x && b3 ls hs x) = true <-> early_cuts low upp lx hx ls hs x) by (intros x; rewrite !andb_true_iff, cut_band; unfold b2, b3; rewrite !cut_within; reflexivity).
  rewrite in_d3. split.
  - intros [[H1 H2] H3]. split; [assumption|]. split; [assumption|]. rewrite E in H3. revert H3. apply alone_only; [exact P|]. apply filter_In. split; [assumption|now apply P].
  - intros (H1 & H2 & H3). split; [auto|]. rewrite E. apply (alone_only _ _ _ _ P); [apply filter_In; split; [assumption|now apply P]|assumption].
Qed.

Section C39.
  Variables (low upp : Q -> Q) (lx hx ls hs rmax ld hd ln hn : Q) (kdst : list krow).
  Notation run := (apply_selections kdst low upp lx hx ls hs rmax ld hd ln hn).
  Notation early := (early_cuts low upp lx hx ls hs).
  (** The product of the efficiencies of the stages is the total efficiency: the fraction of the events left at the end. *)
  Theorem C39_product final eff : run = Ok (final, eff) ->
    eff_band eff * eff_xrays eff * eff_s2t eff * eff_s1s2 eff * eff_rmax eff * eff_dt eff * eff_nsipm eff == eff_total eff /\ fraction kdst final (eff_total eff).
  Proof.
    intros H. apply run_inv in H. destruct H as (E1 & E2 & E3 & E4 & E5 & E6 & E7 & Et & ->). pose proof (eff_nonzero _ _ _ E1) as N0.
    destruct (eff_ok kdst (d2 low upp lx hx kdst) N0) as (t2 & T2). destruct (eff_ok kdst (d3 low upp lx hx ls hs kdst) N0) as (t3 & T3). destruct (eff_ok kdst (d4 low upp lx hx ls hs kdst) N0) as (t4 & T4). destruct (eff_ok kdst (d5 low upp lx hx ls hs rmax kdst) N0) as (t5 & T5). destruct (eff_ok kdst (d6 low upp lx hx ls hs rmax ld hd kdst) N0) as (t6 & T6).
    pose proof (eff_chain _ _ _ _ _ _ E1 E2 T2) as C2. pose proof (eff_chain _ _ _ _ _ _ T2 E3 T3) as C3. pose proof (eff_chain _ _ _ _ _ _ T3 E4 T4) as C4. pose proof (eff_chain _ _ _ _ _ _ T4 E5 T5) as C5. pose proof (eff_chain _ _ _ _ _ _ T5 E6 T6) as C6. pose proof (eff_chain _ _ _ _ _ _ T6 E7 Et) as C7.
    split; [now rewrite C2, C3, C4, C5, C6, C7|]. apply eff_fraction; [|assumption]. unfold d7, d6, d5, d4, d3, d2, d1. intros r. rewrite !filter_In. tauto.
  Qed.
  (** The efficiency of each stage is the fraction of the events that enter it that are left after it. *)
  Theorem C39_stages final eff : run = Ok (final, eff) -> exists l1 l2 l3 l4 l5 l6,
    (forall r, In r l1 <-> In r kdst /\ in_band low upp r) /\ fraction kdst l1 (eff_band eff) /\
    (forall r, In r l2 <-> In r l1 /\ within (k_ec r) lx hx) /\ fraction l1 l2 (eff_xrays eff) /\
    (forall r, In r l3 <-> In r l2 /\ within (k_s2t r) ls hs) /\ fraction l2 l3 (eff_s2t eff) /\
    (forall r, In r l4 <-> In r l3 /\ only_one early kdst r) /\ fraction l3 l4 (eff_s1s2 eff) /\
    (forall r, In r l5 <-> In r l4 /\ within (k_r r) 0 rmax) /\ fraction l4 l5 (eff_rmax eff) /\
    (forall r, In r l6 <-> In r l5 /\ within (k_dt r) ld hd) /\ fraction l5 l6 (eff_dt eff) /\
    (forall r, In r final <-> In r l6 /\ within (k_nsipm r) ln hn) /\ fraction l6 final (eff_nsipm eff).
  Proof.
    intros H. apply run_inv in H. destruct H as (E1 & E2 & E3 & E4 & E5 & E6 & E7 & Et & ->).
    exists (d1 low upp kdst), (d2 low upp lx hx kdst), (d3 low upp lx hx ls hs kdst), (d4 low upp lx hx ls hs kdst), (d5 low upp lx hx ls hs rmax kdst), (d6 low upp lx hx ls hs rmax ld hd kdst).
    assert (F : forall a p e, eff_of_selection a (filter p a) = Ok e -> fraction a (filter p a) e) by (intros a p e K; apply eff_fraction; [apply incl_filter|assumption]).
    split; [intros r; unfold d1; now rewrite filter_In, cut_band|]. split; [now apply F|]. split; [intros r; unfold d2, b2; now rewrite filter_In, cut_within|]. split; [now apply F|]. split; [intros r; unfold d3, b3; now rewrite filter_In, cut_within|]. split; [now apply F|].
    split; [intros r; rewrite in_d4, in_d3; tauto|]. split; [now apply F|]. split; [intros r; unfold d5, b5; now rewrite filter_In, cut_within|]. split; [now apply F|]. split; [intros r; unfold d6, b6; now rewrite filter_In, cut_within|]. split; [now apply F|]. split; [intros r; unfold d7, b7; now rewrite filter_In, cut_within|now apply F].
  Qed.
  (** The rows left are those that pass all cuts. *)
  Theorem C39_survivors final eff : run = Ok (final, eff) ->
    forall r, In r final <-> In r kdst /\ early r /\ only_one early kdst r /\ late_cuts rmax ld hd ln hn r.
  Proof.
    intros H r. apply run_inv in H. destruct H as (_ & _ & _ & _ & _ & _ & _ & _ & ->). unfold d7, d6, d5, late_cuts. rewrite !filter_In, in_d4. unfold b5, b6, b7. rewrite !cut_within. tauto.
  Qed.
  (** The only failure is a division by zero, when no row passes all cuts but the last. *)
  Theorem C39_failure : (run = Err ZeroDivisionError /\ forall r, ~ (In r kdst /\ early r /\ only_one early kdst r /\ within (k_r r) 0 rmax /\ within (k_dt r) ld hd)) \/
    (exists final eff r, run = Ok (final, eff) /\ In r kdst /\ early r /\ only_one early kdst r /\ within (k_r r) 0 rmax /\ within (k_dt r) ld hd).
  Proof.
    assert (I : forall r, In r (d6 low upp lx hx ls hs rmax ld hd kdst) <-> In r kdst /\ early r /\ only_one early kdst r /\ within (k_r r) 0 rmax /\ within (k_dt r) ld hd) by (intros r; unfold d6, d5; rewrite !filter_In, in_d4; unfold b5, b6; rewrite !cut_within; tauto).
    destruct (d6 low upp lx hx ls hs rmax ld hd kdst) as [|r0 l0] eqn:E.
    - left. split; [now apply run_err|]. intros r K. apply I in K. destruct K.
    - right. destruct (run_ok low upp lx hx ls hs rmax ld hd ln hn kdst) as (final & eff & R); [rewrite E; discriminate|]. exists final, eff, r0. split; [assumption|]. apply I. now left.
  Qed.
End C39.
Print Assumptions C39_product.
Print Assumptions C39_stages.
Print Assumptions C39_survivors.
Print Assumptions C39_failure.
Definition row_ex (ev : Z) (ec : Q) : krow := {| k_event := ev; k_zrms := Some 1; k_dt := Some 5; k_ec := Some ec; k_s2t := Some 3; k_r := Some 2; k_nsipm := Some 4 |}.
Example C39_ex : exists final eff, apply_selections [row_ex 1 10; row_ex 2 10; row_ex 2 10; row_ex 3 99] (fun _ => 0) (fun _ => 2) 0 20 0 10 5 0 10 0 9 = Ok (final, eff) /\ final = [row_ex 1 10] /\ eff_total eff == 1 # 3.
Proof. eexists _, _. split; [vm_compute; reflexivity|]. split; reflexivity. Qed.

(** ---- C56: correction with the 3D map ---- *)
Lemma nth_present m k : nth_error (present (map kb_mu (filter has_mu m))) k = match nth_error (filter has_mu m) k with Some b => kb_mu b | None => None end.
Proof.
  assert (H : forall l, forallb has_mu l = true -> forall k, nth_error (present (map kb_mu l)) k = match nth_error l k with Some b => kb_mu b | None => None end).
  { induction l as [|b l IH]; intros F j; [now destruct j|]. cbn in F. apply andb_true_iff in F. destruct F as [F1 F2]. unfold has_mu in F1. destruct (kb_mu b) as [q|] eqn:E; [|discriminate]. cbn. rewrite E. cbn. destruct j as [|j]; cbn; [now rewrite E|now apply IH]. }
  apply H. apply forallb_forall. intros b Hb. now apply filter_In in Hb.
Qed.
Lemma filter_filter' {A} (p q : A -> bool) l : filter p (filter q l) = filter (fun a => q a && p a) l.
Proof. induction l as [|a l IH]; [reflexivity|]. cbn. destruct (q a) eqn:E; cbn; rewrite ?E; cbn; [destruct (p a); now rewrite IH|exact IH]. Qed.
Lemma has_mu_idem m : filter has_mu (filter has_mu m) = filter has_mu m.
Proof. rewrite filter_filter'. apply filter_ext. intros b. now destruct (has_mu b). Qed.
Lemma numbers_used p m : numbers (map kb_mu (filter p (filter has_mu m))) = numbers (map kb_mu (filter p m)).
Proof. induction m as [|b m IH]; [reflexivity|]. cbn. unfold has_mu at 1. destruct (kb_mu b) eqn:E; cbn; destruct (p b); cbn; rewrite ?E; cbn; now rewrite IH. Qed.
(** The normalization is the maximum, mean or median of the values of the bins that the method names. *)
Theorem C56_normalization m method xy v : normalization m method xy = Ok v -> ignoring_nan (summary_of method) (map kb_mu (filter (used_bin method xy) m)) v.
Proof.
  assert (M : forall R p q v, ignoring_nan R (map kb_mu (filter p (filter has_mu m))) v -> (forall b, p b = q b) -> ignoring_nan R (map kb_mu (filter q m)) v).
  { intros R p q w H E. rewrite (filter_ext p q E) in H. unfold ignoring_nan in *. now rewrite numbers_used in H. }
  assert (T : filter has_mu m = filter (fun _ => true) (filter has_mu m)) by (symmetry; apply filter_all_in; reflexivity).
  destruct method; cbn [normalization]; intros H.
  - injection H as <-. rewrite T. eapply M; [apply max_is|]. reflexivity.
  - injection H as <-. rewrite T. eapply M; [apply nanmean_is|]. reflexivity.
  - injection H as <-. rewrite T. eapply M; [apply nanmedian_is|]. reflexivity.
  - injection H as <-. eapply M; [apply nanmean_is|]. reflexivity.
  - injection H as <-. eapply M; [apply nanmedian_is|]. reflexivity.
  - destruct xy as [r|]; [|discriminate]. injection H as <-. eapply M; [apply nanmean_is|]. reflexivity.
  - destruct xy as [r|]; [|discriminate]. injection H as <-. eapply M; [apply nanmedian_is|]. reflexivity.
  - destruct xy as [r|]; [|discriminate]. injection H as <-. rewrite filter_filter'. eapply M; [apply nanmean_is|]. reflexivity.
  - destruct xy as [r|]; [|discriminate]. injection H as <-. rewrite filter_filter'. eapply M; [apply nanmedian_is|]. reflexivity.
  - destruct xy; discriminate.
Qed.
Print Assumptions C56_normalization.
(** It exists for every map, if the method is one of the nine and has its region. *)
Theorem C56_normalization_total m method xy : (exists v, normalization m method xy = Ok v) <-> method <> OtherMethod /\ (needs_region method = true -> xy <> None).
Proof.
  split.
  - intros (v & H). destruct method, xy; cbn in *; try discriminate; split; congruence.
  - intros [H1 H2]. destruct method, xy; cbn in *; try (eexists; reflexivity); try congruence; exfalso; now apply H2.
Qed.
Print Assumptions C56_normalization_total.

Section C56.
  Variable nearest : list (Q * Q * Q) -> Q * Q * Q -> nat.
  Hypothesis griddata : takes_nearest nearest.
  Lemma nearest_mu m p : (exists b, In b m /\ kb_mu b <> None) ->
    exists mu b, nth_error (present (map kb_mu (filter has_mu m))) (nearest (map (fun b => (kb_dt b, kb_x b, kb_y b)) (filter has_mu m)) p) = Some mu /\ nearest_bin m p b mu.
  Proof.
    intros (b0 & H0 & M0). set (pts := map (fun b => (kb_dt b, kb_x b, kb_y b)) (filter has_mu m)). assert (I0 : In b0 (filter has_mu m)) by (apply filter_In; split; [assumption|]; unfold has_mu; destruct (kb_mu b0); congruence).
    assert (N : pts <> []). { unfold pts. intros E. apply map_eq_nil in E. rewrite E in I0. destruct I0. }
    destruct (griddata pts p N) as [G1 G2]. set (k := nearest pts p) in *. assert (Lk : (k < length (filter has_mu m))%nat) by (unfold pts in G1; now rewrite map_length in G1).
    rewrite nth_present. destruct (nth_error (filter has_mu m) k) as [b|] eqn:E; [|apply nth_error_None in E; lia]. pose proof (nth_error_In _ _ E) as I. apply filter_In in I. destruct I as [I1 I2]. unfold has_mu in I2. destruct (kb_mu b) as [mu|] eqn:Em; [|discriminate].
    exists mu, b. split; [reflexivity|]. split; [assumption|]. split; [assumption|]. intros b' Hb' Mb'. assert (P : nth k pts (0, 0, 0) = (kb_dt b, kb_x b, kb_y b)). { unfold pts. apply nth_error_nth. now apply (map_nth_error (fun b => (kb_dt b, kb_x b, kb_y b))). }
    rewrite <- P. apply G2. unfold pts. apply in_map_iff. exists b'. split; [reflexivity|]. apply filter_In. split; [assumption|]. unfold has_mu. destruct (kb_mu b'); congruence.
  Qed.
  (** with a unit: the energy times 41.55 keV over the value of a nearest bin, whatever the method *)
  Definition corrected_with_unit (m : list kbin) (u : Q) (d : Q * Q * Q * val) (c : val) : Prop :=
    match snd d with
    | Some e => exists q b mu, c = Some q /\ nearest_bin m (fst d) b mu /\ q * mu * u == e * (4155 # 100) * keV
    | None => c = None
    end.
  Definition corrected_without_unit (m : list kbin) (norm : val) (d : Q * Q * Q * val) (c : val) : Prop :=
    match snd d, norm with
    | Some e, Some n => exists q b mu, c = Some q /\ nearest_bin m (fst d) b mu /\ q * mu == e * n
    | _, _ => c = None
    end.
  Theorem C56_with_unit m method xy u data n : (exists b, In b m /\ kb_mu b <> None) -> (forall b mu, In b m -> kb_mu b = Some mu -> ~ mu == 0) -> ~ u == 0 ->
    normalization m method xy = Ok (Some n) -> ~ n == 0 ->
    exists out, apply_3Dmap nearest m method xy (Some u) data = Ok out /\ Forall2 (corrected_with_unit m u) data out.
  Proof.
    intros Hm Z U N0 Nn. unfold apply_3Dmap. assert (N : normalization (filter has_mu m) method xy = normalization m method xy) by (unfold normalization; now rewrite has_mu_idem). rewrite N, N0. cbn [rbind].
    apply rmap_all_forall2. intros [p e] _. destruct (nearest_mu m p Hm) as (mu & b & E & B). rewrite E. assert (Zm : ~ mu == 0) by (destruct B as (B1 & B2 & _); eapply Z; eassumption). destruct (Qeqb_spec mu 0); [contradiction|]. unfold corrected_with_unit. cbn [fst snd]. destruct e as [e|]; [|eexists; split; reflexivity].
    destruct (Qeqb_spec u 0); [contradiction|]. destruct (Qeqb_spec n 0); [contradiction|]. eexists. split; [reflexivity|]. eexists _, b, mu. split; [reflexivity|]. split; [assumption|]. field. auto.
  Qed.
  (** so the result does not depend on the method *)
  Theorem C56_independent m method method' xy xy' u data n n' : (exists b, In b m /\ kb_mu b <> None) -> (forall b mu, In b m -> kb_mu b = Some mu -> ~ mu == 0) -> ~ u == 0 ->
    normalization m method xy = Ok (Some n) -> ~ n == 0 -> normalization m method' xy' = Ok (Some n') -> ~ n' == 0 ->
    exists out out', apply_3Dmap nearest m method xy (Some u) data = Ok out /\ apply_3Dmap nearest m method' xy' (Some u) data = Ok out' /\
      Forall2 (fun c c' => match c, c' with Some q, Some q' => q == q' | None, None => True | _, _ => False end) out out'.
  Proof.
    intros Hm Z U N0 Nn N0' Nn'. unfold apply_3Dmap. assert (N : forall a b, normalization (filter has_mu m) a b = normalization m a b) by (intros a b; unfold normalization; now rewrite has_mu_idem). rewrite !N, N0, N0'. cbn [rbind].
    induction data as [|[p e] data IH]; [exists [], []; repeat split; constructor|]. destruct IH as (out & out' & E1 & E2 & E3). cbn [rmap]. rewrite E1, E2. destruct (nearest_mu m p Hm) as (mu & b & E & B). rewrite E. assert (Zm : ~ mu == 0) by (destruct B as (B1 & B2 & _); eapply Z; eassumption). destruct (Qeqb_spec mu 0); [contradiction|].
    destruct (Qeqb_spec u 0); [contradiction|]. destruct (Qeqb_spec n 0); [contradiction|]. destruct (Qeqb_spec n' 0); [contradiction|]. destruct e as [e|]; eexists _, _; (split; [reflexivity|]; split; [reflexivity|]); constructor; try assumption; cbn; trivial. field. auto.
  Qed.
  Theorem C56_without_unit m method xy data norm : (exists b, In b m /\ kb_mu b <> None) -> (forall b mu, In b m -> kb_mu b = Some mu -> ~ mu == 0) ->
    normalization m method xy = Ok norm -> exists out, apply_3Dmap nearest m method xy None data = Ok out /\ Forall2 (corrected_without_unit m norm) data out.
  Proof.
    intros Hm Z N0. unfold apply_3Dmap. assert (N : normalization (filter has_mu m) method xy = normalization m method xy) by (unfold normalization; now rewrite has_mu_idem). rewrite N, N0. cbn [rbind].
    apply rmap_all_forall2. intros [p e] _. destruct (nearest_mu m p Hm) as (mu & b & E & B). rewrite E. assert (Zm : ~ mu == 0) by (destruct B as (B1 & B2 & _); eapply Z; eassumption). destruct (Qeqb_spec mu 0); [contradiction|]. unfold corrected_without_unit. cbn [fst snd].
    destruct e as [e|], norm as [n0'|]; try (eexists; split; reflexivity). eexists. split; [reflexivity|]. eexists _, b, mu. split; [reflexivity|]. split; [assumption|]. field. assumption.
  Qed.
End C56.
Print Assumptions C56_with_unit.
Print Assumptions C56_independent.
Print Assumptions C56_without_unit.
(** a function that takes the nearest point exists *)
Fixpoint nearest_from (p : Q * Q * Q) (l : list (Q * Q * Q)) (i best : nat) (d : Q) : nat :=
  match l with [] => best | q :: l => if Qltb (dist2 p q) d then nearest_from p l (S i) i (dist2 p q) else nearest_from p l (S i) best d end.
Definition first_nearest (l : list (Q * Q * Q)) (p : Q * Q * Q) : nat := match l with [] => 0%nat | q :: l => nearest_from p l 1 0 (dist2 p q) end.
Lemma nearest_from_spec p l : forall pre best, (best < length pre)%nat -> (forall q, In q pre -> dist2 p (nth best pre (0, 0, 0)) <= dist2 p q) ->
  let k := nearest_from p l (length pre) best (dist2 p (nth best pre (0, 0, 0))) in (k < length (pre ++ l))%nat /\ forall q, In q (pre ++ l) -> dist2 p (nth k (pre ++ l) (0, 0, 0)) <= dist2 p q.
Proof.
  induction l as [|x l IH]; intros pre best H1 H2; cbn [nearest_from]; [rewrite app_nil_r; auto|].
  assert (L : length (pre ++ [x]) = S (length pre)) by (rewrite app_length; cbn; lia). assert (A : pre ++ x :: l = (pre ++ [x]) ++ l) by now rewrite <- app_assoc. rewrite A, <- L.
  destruct (Qltb_spec (dist2 p x) (dist2 p (nth best pre (0, 0, 0)))) as [K|K].
  - assert (E : nth (length pre) (pre ++ [x]) (0, 0, 0) = x) by (rewrite app_nth2, Nat.sub_diag by lia; reflexivity). pose proof (IH (pre ++ [x]) (length pre)) as I. rewrite E in I. apply I; [lia|]. intros q Hq. apply in_app_or in Hq. destruct Hq as [Hq|[<-|[]]]; [|lra]. specialize (H2 q Hq). lra.
  - assert (E : nth best (pre ++ [x]) (0, 0, 0) = nth best pre (0, 0, 0)) by (apply app_nth1; lia). rewrite <- E. apply IH; [lia|]. rewrite E. intros q Hq. apply in_app_or in Hq. destruct Hq as [Hq|[<-|[]]]; [now apply H2|assumption].
Qed.
Lemma first_nearest_ok : takes_nearest first_nearest.
Proof.
  intros [|x l] p H; [contradiction|]. unfold first_nearest. apply (nearest_from_spec p l [x] 0%nat); [cbn; lia|]. intros q [<-|[]]. cbn. lra.
Qed.
Definition bin_ex (x : Q) (mu : val) : kbin := {| kb_k := 0; kb_dt := 0; kb_x := x; kb_y := 0; kb_mu := mu |}.
Example C56_ex : apply_3Dmap first_nearest [bin_ex 0 (Some 2); bin_ex 10 None; bin_ex 20 (Some 4)] Maximum None None [((0, 9, 0), Some 8); ((0, 11, 0), Some 8)] = Ok [Some (8 * (4 / 2)); Some (8 * (4 / 4))].
Proof. vm_compute. reflexivity. Qed.
