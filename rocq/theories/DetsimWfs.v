(** C46: the waveform of a sensor before and after smearing *)
From Verif Require Import Base Arrays PeaksModel PeaksProofs BuffersModel BuffersProofs WfmProps DetsimModel DetsimSpec DetsimProps.
Local Open Scope Q_scope.

Lemma rfold_adds {A S X} (f : S -> A -> result S) (inv : S -> Prop) (v : S -> X -> Q) (D : X -> Prop) (c : A -> X -> Q) l :
  (forall s a, In a l -> inv s -> exists s', f s a = Ok s' /\ inv s' /\ forall x, D x -> v s' x == v s x + c a x) ->
  forall s, inv s -> exists s', rfold f l s = Ok s' /\ inv s' /\ forall x, D x -> v s' x == v s x + sumF (fun a => c a x) l.
Proof.
  unfold rfold. induction l as [|a l IH]; intros H s Hs.
  - exists s. split; [reflexivity|]. split; [assumption|]. intros x _. unfold sumF. cbn. lra.
  - destruct (H s a (or_introl eq_refl) Hs) as (s1 & E1 & I1 & V1). cbn [fold_left rbind]. rewrite E1.
    destruct (IH (fun s0 a0 H0 => H s0 a0 (or_intror H0)) s1 I1) as (s2 & E2 & I2 & V2). exists s2. split; [assumption|]. split; [assumption|].
    intros x Hx. rewrite V2, V1, sumF_cons by assumption. lra.
Qed.
Lemma rfold_app {A S} (f : S -> A -> result S) l m s : rfold f (l ++ m) s = rbind (rfold f l s) (fun s => rfold f m s).
Proof.
  unfold rfold. rewrite fold_left_app. destruct (fold_left _ l (Ok s)) as [s'|e]; [reflexivity|]. cbn [rbind]. induction m as [|a m IH]; [reflexivity|assumption].
Qed.

Section Wfs.
Variable lt : light_table.
Variables el_dv bin len tmin : Q.
Hypothesis U : usable lt el_dv bin len.
Let n := length (zbins lt).
Let bs := el_gap_width lt / qn n / el_dv / bin.
Let el_times := arange (bs / 2) (el_gap_width lt / el_dv / bin) bs.
Let nbz := Qceiling (len / bin).
Let nb := Z.to_nat nbz.

Lemma qn_n : 0 < qn n.
Proof using U. apply qn_pos. apply U. Qed.
Lemma bs_pos : 0 < bs.
Proof using U.
  pose proof qn_n. destruct U as [H1 H2 H3 H4 H5]. unfold bs. repeat (apply Qlt_shift_div_l; [assumption|]; rewrite Qmult_0_l). assumption.
Qed.
Lemma gap_bs : el_gap_width lt / el_dv / bin == qn n * bs.
Proof using U. pose proof qn_n. destruct U as [H1 H2 H3 H4 H5]. unfold bs. field. repeat split; lra. Qed.
Lemma el_length : length el_times = n.
Proof using U.
  unfold el_times, arange. rewrite map_length, seq_length. pose proof bs_pos as B. pose proof gap_bs as G.
  assert (E : (el_gap_width lt / el_dv / bin - bs / 2) / bs == qn n - (1#2)) by (rewrite G; field; lra).
  assert (C : Qceiling ((el_gap_width lt / el_dv / bin - bs / 2) / bs) = Z.of_nat n).
  { apply Qceil_spec. rewrite E. unfold qn. rewrite inj_minus. change (inject_Z 1) with 1. split; lra. }
  rewrite C. apply Nat2Z.id.
Qed.
Lemma el_nth k : (k < n)%nat -> nth k el_times 0 == bs / 2 + qn k * bs.
Proof using U.
  intros H. pose proof el_length as L. unfold el_times, arange in *. rewrite map_length, seq_length in L.
  rewrite (nth_indep _ 0 ((fun i => bs / 2 + qn i * bs) 0%nat)) by (rewrite map_length, seq_length; lia). rewrite (map_nth (fun i => bs / 2 + qn i * bs)), seq_nth by lia. reflexivity.
Qed.
Lemma time_part e k : (k < n)%nat -> (et e - tmin) / bin + nth k el_times 0 == (part_time lt el_dv e k - tmin) / bin.
Proof using U.
  intros H. rewrite el_nth by assumption. pose proof qn_n. destruct U as [H1 H2 H3 H4 H5]. unfold part_time, bs. fold n. field. repeat split; lra.
Qed.
Lemma part_later e k : part_time lt el_dv e 0 <= part_time lt el_dv e k.
Proof using U.
  pose proof qn_n as N. destruct U as [H1 H2 H3 H4 H5]. unfold part_time. fold n.
  assert (0 < el_gap_width lt / qn n) by (apply Qlt_shift_div_l; [assumption|]; rewrite Qmult_0_l; assumption).
  assert (0 <= qn k) by (change 0 with (qn 0); apply qn_le; lia). change (qn 0) with 0.
  apply Qplus_le_r. apply Qle_shift_div_l; [assumption|]. setoid_replace ((0 + (1 # 2)) * (el_gap_width lt / qn n) / el_dv * el_dv) with ((1#2) * (el_gap_width lt / qn n)) by (field; split; lra). nra.
Qed.
Lemma nbz_nonneg : (0 <= nbz)%Z.
Proof using U.
  unfold nbz. destruct U as [H1 H2 H3 H4 H5]. assert (0 <= len / bin) by (apply Qle_shift_div_l; [assumption|]; rewrite Qmult_0_l; assumption).
  pose proof (Qle_ceiling (len / bin)). rewrite Zle_Qle. change (inject_Z 0) with 0. lra.
Qed.

(** bins of a time *)
Lemma bin_of t (b : Z) : Qfloor ((t - tmin) / bin) = b <-> (tmin + inject_Z b * bin <= t /\ t < tmin + inject_Z (b + 1) * bin).
Proof using U.
  destruct U as [H1 _ _ _ _]. rewrite Qfloor_spec. set (q := (t - tmin) / bin). assert (E : t == tmin + q * bin) by (unfold q; field; lra). rewrite E. clearbody q. split; intros [A B]; split; nra.
Qed.

Definition cell (wfs : list (list Q)) (x : nat * nat) : Q := nth (snd x) (nth (fst x) wfs []) 0.
Definition shaped (wfs : list (list Q)) : Prop := length wfs = num_sensors lt /\ forall s, (s < num_sensors lt)%nat -> length (nth s wfs []) = nb.
Definition inside (x : nat * nat) : Prop := (fst x < num_sensors lt)%nat /\ (snd x < nb)%nat.
Definition in_bin_b (b : nat) (t : Q) : bool := Qle_bool (tmin + qn b * bin) t && Qltb t (tmin + qn (S b) * bin).

Definition step_k (e : electron) (s : nat) (lt_factors : list Q) (wfs : list (list Q)) (k : nat) : result (list (list Q)) :=
            let tindx := Qfloor ((et e - tmin) / bin + nth k el_times 0) in
            if (nbz <=? tindx)%Z then Ok wfs
            else rbind (wrap nb tindx) (fun j =>
                 Ok (upd s (add_at j (nth k lt_factors 0 * inject_Z (eph e)) (nth s wfs [])) wfs)).
Definition step_s (e : electron) (wfs : list (list Q)) (s : nat) : result (list (list Q)) :=
      match values lt (ex e) (ey e) s with
      | None => Ok wfs
      | Some lt_factors => rfold (step_k e s lt_factors) (seq 0 (length el_times)) wfs
      end.
Definition step_e (wfs : list (list Q)) (e : electron) : result (list (list Q)) := rfold (step_s e) (seq 0 (num_sensors lt)) wfs.

Definition c_k (e : electron) (s k : nat) (x : nat * nat) : Q :=
  if Nat.eqb s (fst x) then if in_bin_b (snd x) (part_time lt el_dv e k) then light lt s e k else 0 else 0.

Lemma step_k_ok e s f wfs k : values lt (ex e) (ey e) s = Some f -> tmin <= part_time lt el_dv e 0 -> (s < num_sensors lt)%nat -> (k < n)%nat -> shaped wfs ->
  exists wfs', step_k e s f wfs k = Ok wfs' /\ shaped wfs' /\ forall x, inside x -> cell wfs' x == cell wfs x + c_k e s k x.
Proof using U.
  intros V T Hs Hk [Sh1 Sh2]. unfold step_k. pose proof nbz_nonneg as NZ.
  assert (F : Qfloor ((et e - tmin) / bin + nth k el_times 0) = Qfloor ((part_time lt el_dv e k - tmin) / bin)) by now rewrite time_part.
  rewrite F. cbv zeta. pose proof (part_later e k) as PL. set (t := part_time lt el_dv e k) in *.
  assert (T0 : tmin <= t) by lra. destruct (proj1 (bin_of t _) eq_refl) as [B1 B2]. set (b := Qfloor ((t - tmin) / bin)) in *.
  assert (HB : 0 < bin) by apply U.
  assert (P0 : (0 <= b)%Z). { destruct (Z_le_gt_dec 0 b) as [?|G]; [assumption|]. exfalso. assert (L : inject_Z (b + 1) <= 0) by (change 0 with (inject_Z 0); rewrite <- Zle_Qle; lia). nra. }
  assert (IB : forall j, in_bin_b j t = true <-> b = Z.of_nat j).
  { intros j. unfold in_bin_b. rewrite andb_true_iff, Qleb_le, Qltb_lt. unfold qn. rewrite Nat2Z.inj_succ. unfold Z.succ. rewrite <- bin_of. reflexivity. }
  destruct (Z.leb_spec nbz b) as [G|G].
  - exists wfs. split; [reflexivity|]. split; [split; assumption|]. intros [s' j] [X1 X2]. cbn [fst snd] in *. unfold c_k. cbn [fst snd].
    fold t. destruct (Nat.eqb_spec s s'); [|lra]. destruct (in_bin_b j t) eqn:E; [|lra]. apply IB in E. unfold nb in X2. lia.
  - unfold wrap. assert (W : ((0 <=? b) && (b <? Z.of_nat nb))%Z = true) by (rewrite andb_true_iff, Z.leb_le, Z.ltb_lt; unfold nb; lia). rewrite W. cbn [rbind].
    assert (Hb : (Z.to_nat b < nb)%nat) by (unfold nb; lia).
    eexists. split; [reflexivity|]. split.
    + split; [now rewrite length_upd|]. intros s' Hs'. rewrite nth_upd by lia. destruct (Nat.eqb_spec s' s) as [->|]; [|now apply Sh2]. rewrite length_add_at. now apply Sh2.
    + intros [s' j] [X1 X2]. unfold cell, c_k. cbn [fst snd] in *. fold t. rewrite nth_upd by lia. rewrite (Nat.eqb_sym s s'). destruct (Nat.eqb_spec s' s) as [->|]; [|lra].
      rewrite nth_add_at by (rewrite Sh2; assumption). unfold light. rewrite V. destruct (Nat.eqb_spec j (Z.to_nat b)) as [E|E].
      * assert (Y : in_bin_b j t = true) by (apply IB; lia). rewrite Y. lra.
      * destruct (in_bin_b j t) eqn:Y; [|lra]. apply IB in Y. lia.
Qed.
Lemma step_s_ok e wfs s : tmin <= part_time lt el_dv e 0 -> (s < num_sensors lt)%nat -> shaped wfs ->
  exists wfs', step_s e wfs s = Ok wfs' /\ shaped wfs' /\ forall x, inside x -> cell wfs' x == cell wfs x + sumF (fun k => c_k e s k x) (seq 0 n).
Proof using U.
  intros T Hs Sh. unfold step_s. destruct (values lt (ex e) (ey e) s) as [f|] eqn:V.
  - rewrite el_length. apply rfold_adds with (D := inside) (v := cell) (inv := shaped) (c := fun k x => c_k e s k x); [|assumption].
    intros w k Hk Hw. apply in_seq in Hk. apply step_k_ok; try assumption. lia.
  - exists wfs. split; [reflexivity|]. split; [assumption|]. intros x _. rewrite sumF_zero; [lra|]. intros k _. unfold c_k, light. rewrite V. destruct (Nat.eqb s (fst x)), (in_bin_b (snd x) (part_time lt el_dv e k)); reflexivity.
Qed.
Definition c_e (e : electron) (x : nat * nat) : Q := sumF (fun k => if in_bin_b (snd x) (part_time lt el_dv e k) then light lt (fst x) e k else 0) (seq 0 n).
Lemma step_e_ok e wfs : tmin <= part_time lt el_dv e 0 -> shaped wfs ->
  exists wfs', step_e wfs e = Ok wfs' /\ shaped wfs' /\ forall x, inside x -> cell wfs' x == cell wfs x + c_e e x.
Proof using U.
  intros T Sh. unfold step_e. destruct (rfold_adds (step_s e) shaped cell inside (fun s x => sumF (fun k => c_k e s k x) (seq 0 n)) (seq 0 (num_sensors lt))) with (s := wfs) as (w & E & I & V).
  - intros w s Hs Hw. apply in_seq in Hs. apply step_s_ok; try assumption. lia.
  - assumption.
  - exists w. split; [assumption|]. split; [assumption|]. intros x Hx. rewrite V by assumption. apply Qplus_comp; [reflexivity|].
    rewrite (sumF_ext _ (fun s => if Nat.eqb s (fst x) then c_e e x else 0)).
    + destruct Hx as [Hx _]. clear - Hx. generalize (c_e e x). intros q. revert Hx. generalize (num_sensors lt). generalize (fst x). intros a m H.
      rewrite (sumF_ext _ (fun j => if ((a <=? j) && (j <? S a))%nat then q else 0)).
      * rewrite sum_interval by lia. replace (Nat.min (S a) m - Nat.min a m)%nat with 1%nat by lia. change (qn 1) with 1. lra.
      * intros j _. destruct (Nat.eqb_spec j a), (Nat.leb_spec a j), (Nat.ltb_spec j (S a)); cbn [andb]; try reflexivity; lia.
    + intros s _. unfold c_k. destruct (Nat.eqb_spec s (fst x)) as [->|]; [reflexivity|]. now apply sumF_zero.
Qed.

Lemma raw_ok els : (forall e, In e els -> tmin <= part_time lt el_dv e 0) ->
  exists wfs, rfold step_e els (repeat (repeat 0 nb) (num_sensors lt)) = Ok wfs /\ shaped wfs /\
  forall s b, (s < num_sensors lt)%nat -> (b < nb)%nat -> nth b (nth s wfs []) 0 == light_between lt el_dv els s (tmin + qn b * bin) (tmin + qn (S b) * bin).
Proof using U.
  intros T. assert (R : forall s, (s < num_sensors lt)%nat -> nth s (repeat (repeat 0 nb) (num_sensors lt)) [] = repeat 0 nb).
  { intros s Hs. destruct (nth_in_or_default s (repeat (repeat 0 nb) (num_sensors lt)) []) as [I|E]; [now apply repeat_spec in I|].
    rewrite (nth_indep _ [] (repeat 0 nb)) by now rewrite repeat_length. apply nth_repeat. }
  destruct (rfold_adds step_e shaped cell inside c_e els) with (s := repeat (repeat 0 nb) (num_sensors lt)) as (w & E & I & V).
  - intros w e He Hw. apply step_e_ok; auto.
  - split; [apply repeat_length|]. intros s Hs. rewrite R by assumption. apply repeat_length.
  - exists w. split; [assumption|]. split; [assumption|]. intros s b Hs Hb. specialize (V (s, b) (conj Hs Hb)). unfold cell in V. cbn [fst snd] in V. rewrite V, R, nth_repeat by assumption.
    rewrite Qplus_0_l. reflexivity.
Qed.

Lemma create_wfs_raw els : (forall e, In e els -> tmin <= part_time lt el_dv e 0) ->
  exists wfs, create_wfs els lt el_dv bin len tmin = Ok (if (1 <? Qceiling bs)%Z then map (fun wf => spread_histogram wf (Z.to_nat (Qceiling bs / 2)) (Z.to_nat (Qceiling bs - Qceiling bs / 2))) wfs else wfs) /\ shaped wfs /\
  forall s b, (s < num_sensors lt)%nat -> (b < nb)%nat -> nth b (nth s wfs []) 0 == light_between lt el_dv els s (tmin + qn b * bin) (tmin + qn (S b) * bin).
Proof using U.
  intros T. destruct (raw_ok els T) as (w & E & I & V). exists w. split; [|split; assumption].
  unfold create_wfs. pose proof nbz_nonneg as NZ. pose proof bs_pos as BP. pose proof el_length as EL. assert (HB : 0 < bin) by apply U. assert (HD : 0 < el_dv) by apply U. assert (HP : (0 < n)%nat) by apply U.
  destruct (Qeqb_spec bin 0) as [X|_]; [lra|]. fold nbz. destruct (Z.ltb_spec nbz 0); [lia|]. fold n. destruct (Nat.eqb_spec n 0); [lia|]. destruct (Qeqb_spec el_dv 0) as [X|_]; [lra|]. cbn [orb].
  fold bs. destruct (Qeqb_spec bs 0) as [X|_]; [lra|]. fold el_times. rewrite EL. destruct (Nat.eqb_spec n 0); [lia|]. fold nb.
  unfold step_e, step_s, step_k in E. rewrite EL in E. cbv zeta. rewrite E. cbn [rbind]. destruct (1 <? Qceiling bs)%Z; reflexivity.
Qed.
End Wfs.
