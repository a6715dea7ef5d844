(** C66: the buffer of a simulated event keeps all its light *)
From Verif Require Import Base Arrays PeaksModel PeaksProofs BuffersModel BuffersProofs WfmProps DetsimModel DetsimSpec DetsimProps DetsimWfs DetsimWave.
Local Open Scope Q_scope.

Lemma fold_min ts t : fold_left Qmin ts t <= t /\ forall x, In x ts -> fold_left Qmin ts t <= x.
Proof.
  revert t. induction ts as [|a ts IH]; intros t; cbn [fold_left]; [split; [lra|easy]|]. destruct (IH (Qmin t a)) as [H1 H2]. pose proof (Q.le_min_l t a). pose proof (Q.le_min_r t a).
  split; [lra|]. intros x [<-|Hx]; [lra|auto].
Qed.
Lemma fold_max ts t : t <= fold_left Qmax ts t /\ forall x, In x ts -> x <= fold_left Qmax ts t.
Proof.
  revert t. induction ts as [|a ts IH]; intros t; cbn [fold_left]; [split; [lra|easy]|]. destruct (IH (Qmax t a)) as [H1 H2]. pose proof (Q.le_max_l t a). pose proof (Q.le_max_r t a).
  split; [lra|]. intros x [<-|Hx]; [lra|auto].
Qed.
Lemma fold_min_in ts t : exists x, In x (t :: ts) /\ fold_left Qmin ts t == x.
Proof.
  revert t. induction ts as [|a ts IH]; intros t; cbn [fold_left]; [exists t; split; [now left|reflexivity]|]. destruct (IH (Qmin t a)) as (x & [E|H] & V).
  - subst x. destruct (Q.min_dec t a) as [M|M]; [exists t|exists a]; rewrite V, M; (split; [cbn; auto|reflexivity]).
  - exists x. split; [cbn; auto|assumption].
Qed.

(** the buffer starts at a multiple of the wider bin, less than a bin before the first hit; it ends after the last electron has crossed the gap, unless it is cut at the maximum length *)
Theorem C66_buffer pmt_width sipm_width el_gap el_dv max_length time times_ph start len :
  0 < pmt_width -> 0 < sipm_width ->
  get_buffer_times_and_length pmt_width sipm_width el_gap el_dv max_length time times_ph = Ok (start, len) ->
  let w := Qmax pmt_width sipm_width in
  (forall t, In t time -> start <= t) /\ (exists t, In t time /\ t < start + w) /\ (exists k, start == inject_Z k * w) /\
  (len == max_length \/ (forall t, In t times_ph -> t + el_gap / el_dv <= start + len) /\ exists k, len == inject_Z k * w) /\ len <= max_length.
Proof.
  intros P1 P2 H w. unfold get_buffer_times_and_length in H. destruct time as [|t ts]; [discriminate|]. destruct times_ph as [|p ps]; [discriminate|]. cbv zeta in H. match type of H with Ok (?a, ?b) = Ok (?c, ?d) => assert (H1 : a = c) by congruence; assert (H2 : b = d) by congruence end. clear H.
  assert (W : 0 < w) by (pose proof (Q.le_max_l pmt_width sipm_width); unfold w; lra). fold w in H1, H2. rewrite <- H1 in *. rewrite <- H2. clear start len H1 H2.
  set (mi := fold_left Qmin ts t). set (f := Qfloor (mi / w)). destruct (fold_min ts t) as [M1 M2]. fold mi in M1, M2. destruct (proj1 (Qfloor_spec (mi / w) f) eq_refl) as [F1 F2].
  assert (E : mi == mi / w * w) by (field; lra). assert (F3 : inject_Z f * w <= mi) by nra. assert (F4 : mi < inject_Z (f + 1) * w) by nra. rewrite inj_plus in F4. change (inject_Z 1) with 1 in F4.
  set (ma := fold_left Qmax ps p + el_gap / el_dv). set (c := Qceiling (ma / w)). pose proof (Qle_ceiling (ma / w)) as C. fold c in C. assert (E' : ma == ma / w * w) by (field; lra). assert (C' : ma <= inject_Z c * w) by nra.
  destruct (fold_max ps p) as [X1 X2]. split; [|split; [|split; [|split]]].
  - intros x [<-|Hx]; [lra|]. specialize (M2 x Hx). lra.
  - destruct (fold_min_in ts t) as (x & Hx & V). fold mi in V. exists x. split; [assumption|]. lra.
  - exists f. reflexivity.
  - destruct (Q.min_dec max_length (inject_Z c * w - inject_Z f * w)) as [M|M]; [left; exact M|right]. split.
    + intros x Hx. rewrite M. assert (x <= fold_left Qmax ps p) by (destruct Hx as [<-|Hx]; [lra|auto]). unfold ma in C'. lra.
    + exists (c - f)%Z. rewrite M, inj_minus. ring.
  - apply Q.le_min_l.
Qed.

(** all the light of the electrons is in the waveforms when the buffer covers them: each part of the gap is crossed within a bin, or in a whole number of bins *)
Theorem C66_all_light lt el_dv bin len tmin els : usable lt el_dv bin len ->
  part_bins lt el_dv bin <= 1 \/ (exists m, part_bins lt el_dv bin == inject_Z m) ->
  (forall e, In e els -> tmin <= et e /\ et e + el_gap_width lt / el_dv <= tmin + len) ->
  (forall e s k, In e els -> 0 <= light lt s e k) ->
  exists wfs, create_wfs els lt el_dv bin len tmin = Ok wfs /\ length wfs = num_sensors lt /\ forall s, (s < num_sensors lt)%nat -> sumQ (nth s wfs []) == all_light lt els s.
Proof.
  intros U PB C L0. pose proof U as [B D G P LN]. set (n := length (zbins lt)) in *. assert (N0 : 0 < qn n) by (apply qn_pos; assumption). set (bs := part_bins lt el_dv bin) in *.
  assert (BS : 0 < bs). { unfold bs, part_bins. repeat (apply Qlt_shift_div_l; [assumption|]; rewrite Qmult_0_l). assumption. }
  assert (PT : forall e k, part_time lt el_dv e k == et e + (qn k + (1#2)) * bs * bin). { intros e k. unfold part_time, bs, part_bins. fold n. field. repeat split; lra. }
  assert (GP : el_gap_width lt / el_dv == qn n * bs * bin). { unfold bs, part_bins. fold n. field. repeat split; lra. }
  assert (K0 : forall k, 0 <= qn k) by (intros k; change 0 with (qn 0); apply qn_le; lia).
  assert (K2 : forall k, (k < n)%nat -> qn k + 1 <= qn n). { intros k Hk. replace (qn k + 1) with (qn k + qn 1) by reflexivity. assert (E : qn k + qn 1 == qn (k + 1)) by (unfold qn; now rewrite Nat2Z.inj_add, inject_Z_plus). rewrite E. apply qn_le. lia. }
  assert (later : forall e, In e els -> tmin <= part_time lt el_dv e 0). { intros e He. rewrite PT. destruct (C e He) as [C1 _]. change (qn 0) with 0. nra. }
  assert (NB : len <= qn (bins bin len) * bin).
  { unfold bins, qn. assert (0 <= len / bin) by (apply Qle_shift_div_l; [assumption|]; rewrite Qmult_0_l; assumption). pose proof (Qle_ceiling (len / bin)) as CE. rewrite Z2Nat.id by (rewrite Zle_Qle; change (inject_Z 0) with 0; lra).
    assert (E : len == len / bin * bin) by (field; lra). nra. }
  assert (ALL : forall s, light_between lt el_dv els s tmin (tmin + qn (bins bin len) * bin) == all_light lt els s).
  { intros s. unfold light_between, all_light. fold n. apply sumF_ext. intros e He. apply sumF_ext. intros k Hk. apply in_seq in Hk. cbv zeta. destruct (C e He) as [C1 C2]. rewrite GP in C2. pose proof (PT e k) as T. pose proof (K2 k ltac:(lia)) as K3. pose proof (K0 k) as K4.
    assert (X : 0 < bs * bin) by nra. assert (T1 : tmin <= part_time lt el_dv e k) by (rewrite T; nra). assert (T2 : part_time lt el_dv e k < tmin + qn (bins bin len) * bin).
    { rewrite T. assert ((qn k + (1#2)) * (bs * bin) < qn n * (bs * bin)) by (apply Qmult_lt_compat_r; lra). lra. }
    apply Qleb_le in T1. apply Qltb_lt in T2. rewrite T1, T2. reflexivity. }
  destruct (Qlt_le_dec 1 bs) as [BIG|SMALL].
  - destruct PB as [PB|[m PB]]; [lra|]. assert (M1 : (1 < m)%Z) by (rewrite Zlt_Qlt; change (inject_Z 1) with 1; lra).
    destruct (C46_smeared lt el_dv bin len tmin els U later BIG) as (w & E & S1 & S2). fold bs in S2. assert (CE : Qceiling bs = m). { apply Qceil_spec. rewrite inj_minus. change (inject_Z 1) with 1. lra. } rewrite CE in S2.
    set (M := Z.to_nat m) in *. set (l := (M / 2)%nat) in *. set (r := (M - l)%nat) in *. assert (LM : (2 * l <= M < 2 * l + 2)%nat) by (unfold l; pose proof (Nat.div_mod M 2 ltac:(lia)); pose proof (Nat.mod_upper_bound M 2 ltac:(lia)); lia).
    assert (M2 : (2 <= M)%nat) by (unfold M; lia). assert (LR : (l + r)%nat = M) by lia. assert (MQ : bs == qn M) by (rewrite PB; unfold qn, M; rewrite Z2Nat.id by lia; reflexivity).
    exists w. split; [assumption|]. split; [assumption|]. intros s Hs. destruct (S2 s Hs) as [S3 S4].
    set (hist := map (fun h => light_between lt el_dv els s (tmin + qn h * bin) (tmin + qn (S h) * bin)) (seq 0 (bins bin len))).
    assert (HN : forall h, (h < bins bin len)%nat -> nth h hist 0 = light_between lt el_dv els s (tmin + qn h * bin) (tmin + qn (S h) * bin)).
    { intros h Hh. unfold hist. set (g := fun h => light_between lt el_dv els s (tmin + qn h * bin) (tmin + qn (S h) * bin)). rewrite (nth_indep _ 0 (g 0%nat)) by (rewrite map_length, seq_length; assumption). now rewrite (map_nth g), seq_nth. }
    assert (HL : length hist = bins bin len) by (unfold hist; now rewrite map_length, seq_length).
    assert (W : sumQ (nth s w []) == sumQ (spread_histogram hist l r)).
    { destruct (C47_bins hist l r ltac:(lia)) as [B1 B2]. rewrite sum_nth, S3, (sum_nth (spread_histogram hist l r)), B1, HL. apply sumF_ext. intros j Hj. apply in_seq in Hj. rewrite S4 by lia. rewrite B2 by lia. rewrite HL. apply sumF_ext. intros h Hh. apply in_seq in Hh.
      unfold share. rewrite LR, HN by lia. reflexivity. }
    rewrite W, C47_conserved; [|lia| |].
    + unfold hist. fold (sumF (fun h => light_between lt el_dv els s (tmin + qn h * bin) (tmin + qn (S h) * bin)) (seq 0 (bins bin len))). rewrite light_between_bins by assumption. apply ALL.
    + intros q Hq. unfold hist in Hq. apply in_map_iff in Hq. destruct Hq as (h & <- & _). unfold light_between. apply sumF_nonneg. intros e He. apply sumF_nonneg. intros k _. cbv zeta. destruct (_ && _); [now apply L0|lra].
    + intros h Hh NZ. rewrite HL in *. rewrite HN in NZ by assumption. unfold light_between in NZ. apply sumF_exists in NZ. destruct NZ as (e & He & NZ). cbv zeta in NZ.
      apply (sumF_choose (fun k => Qle_bool (tmin + qn h * bin) (part_time lt el_dv e k) && Qltb (part_time lt el_dv e k) (tmin + qn (S h) * bin))) in NZ. destruct NZ as (k & Hk & T & _). apply in_seq in Hk. fold n in Hk.
      apply andb_true_iff in T. destruct T as [T1 T2]. apply Qleb_le in T1. apply Qltb_lt in T2. rewrite PT in T1, T2. destruct (C e He) as [C1 C2]. rewrite GP in C2. pose proof (K2 k ltac:(lia)) as K3. pose proof (K0 k) as K4.
      assert (X : 0 < bs * bin) by nra. 
      assert (Y1 : (1#2) * (bs * bin) <= (qn k + (1#2)) * (bs * bin)) by nra. assert (Y2 : (qn k + (1#2)) * (bs * bin) + (1#2) * (bs * bin) <= qn n * (bs * bin)) by nra.
      assert (Z1 : (1#2) * bs * bin < qn (S h) * bin) by lra. assert (Z2 : qn h * bin + (1#2) * bs * bin <= qn (bins bin len) * bin) by lra.
      assert (Z3 : (1#2) * bs < qn (S h)) by nra. assert (Z4 : qn h + (1#2) * bs <= qn (bins bin len)) by nra. rewrite MQ in Z3, Z4.
      assert (Z5 : (M < 2 * S h)%nat). { apply Nat.lt_nge. intros Q. assert (qn (2 * S h) <= qn M) by now apply qn_le. assert (qn (2 * S h) == 2 * qn (S h)) by (unfold qn; rewrite Nat2Z.inj_mul, inject_Z_mult; reflexivity). lra. }
      assert (Z6 : (2 * h + M <= 2 * bins bin len)%nat). { apply Nat.le_ngt. intros Q. assert (qn (2 * bins bin len) < qn (2 * h + M)) by now apply qn_lt. assert (qn (2 * bins bin len) == 2 * qn (bins bin len)) by (unfold qn; rewrite Nat2Z.inj_mul, inject_Z_mult; reflexivity).
        assert (qn (2 * h + M) == 2 * qn h + qn M) by (unfold qn; rewrite Nat2Z.inj_add, Nat2Z.inj_mul, inject_Z_plus, inject_Z_mult; reflexivity). lra. }
      lia.
  - destruct (C46_bins lt el_dv bin len tmin els U later SMALL) as (w & E & S1 & S2). exists w. split; [assumption|]. split; [assumption|]. intros s Hs.
    rewrite (C46_total lt el_dv bin len tmin els U later SMALL w s E Hs). apply ALL.
Qed.

(** the whole: with the buffer computed for the event and not cut, no light is lost *)
Theorem C66_event lt el_dv pmt_width sipm_width max_length time start len els bin : 
  usable lt el_dv bin len -> 0 < pmt_width -> 0 < sipm_width ->
  get_buffer_times_and_length pmt_width sipm_width (el_gap_width lt) el_dv max_length time (map et els) = Ok (start, len) -> len < max_length ->
  part_bins lt el_dv bin <= 1 \/ (exists m, part_bins lt el_dv bin == inject_Z m) ->
  (forall e, In e els -> exists t, In t time /\ t <= et e) -> (forall e s k, In e els -> 0 <= light lt s e k) ->
  exists wfs, create_wfs els lt el_dv bin len start = Ok wfs /\ length wfs = num_sensors lt /\ forall s, (s < num_sensors lt)%nat -> sumQ (nth s wfs []) == all_light lt els s.
Proof.
  intros U P1 P2 H LT PB T L0. destruct (C66_buffer _ _ _ _ _ _ _ _ _ P1 P2 H) as (A1 & A2 & A3 & A4 & A5). apply C66_all_light; try assumption. intros e He. split.
  - destruct (T e He) as (t & Ht & Le). specialize (A1 t Ht). lra.
  - destruct A4 as [A4|[A4 _]]; [lra|]. apply A4. now apply in_map.
Qed.

(** a table of one part crossed in 3 units of time, two sensors; electrons at 1 and 7/2 *)
Definition ex_table : light_table := {| num_sensors := 2; zbins := [1#2]; el_gap_width := 6; values := fun x y s => if Qltb x (qn s) then None else Some [x + 1] |}.
Definition ex_electrons : list electron := [{| ex := 0; ey := 0; et := 1; eph := 3 |}; {| ex := 2; ey := 0; et := 7#2; eph := 2 |}].
Example C66_example : usable ex_table 2 1 8 /\ part_bins ex_table 2 1 == inject_Z 3 /\ get_buffer_times_and_length 1 2 6 2 100 [(1#2); 1] (map et ex_electrons) = Ok (0, 8) /\ exists wfs, create_wfs ex_electrons ex_table 2 1 8 0 = Ok wfs /\ map (map Qred) wfs = [[0; 1; 1; 1; 2; 2; 2; 0]; [0; 0; 0; 0; 2; 2; 2; 0]].
Proof.
  split; [constructor; cbn; lra || lia|]. split; [reflexivity|]. split; [reflexivity|]. eexists. split; [vm_compute; reflexivity|]. vm_compute. reflexivity.
Qed.
Example C46_example : usable ex_table 2 3 9 /\ part_bins ex_table 2 3 <= 1 /\ (forall e, In e ex_electrons -> 0 <= part_time ex_table 2 e 0) /\ exists wfs, create_wfs ex_electrons ex_table 2 3 9 0 = Ok wfs /\ map (map Qred) wfs = [[3; 6; 0]; [0; 6; 0]].
Proof.
  split; [constructor; cbn; lra || lia|]. split; [apply Qleb_le; reflexivity|]. split; [intros e [<-|[<-|[]]]; apply Qleb_le; reflexivity|]. eexists. split; [vm_compute; reflexivity|]. vm_compute. reflexivity.
Qed.
Example C47_example : map Qred (spread_histogram [0; 0; 6; -1; 9; 0] 1 2) = [0; 2; 2; 5; 3; 3] /\ (forall q, In q [0; 0; 6; 0; 9; 0] -> 0 <= q) /\ (forall h, (h < 6)%nat -> ~ nth h [0; 0; 6; 0; 9; 0] 0 == 0 -> (1 <= h /\ h + 2 <= 6)%nat).
Proof.
  split; [vm_compute; reflexivity|]. split; [intros q H; repeat destruct H as [<-|H]; try lra; destruct H|]. intros h H N. do 6 (destruct h as [|h]; [cbn in N; lra || lia|]). lia.
Qed.
(** the content of the first bins is not spread but lost *)
Theorem C47_start_refuted : exists hist, (forall q, In q hist -> 0 <= q) /\ sumQ (spread_histogram hist 1 1) < sumQ hist /\ (forall h, (h < length hist)%nat -> ~ nth h hist 0 == 0 -> (h + 1 <= length hist)%nat).
Proof. exists [4; 0; 0]. split; [intros q H; repeat destruct H as [<-|H]; try lra; destruct H|]. split; [reflexivity|]. cbn [length]. lia. Qed.

(** the light of an electron that crosses the gap before the start of the buffer goes to the other end of the waveform, or stops the program *)
Theorem C46_early_refuted : exists lt el_dv bin len tmin e wfs, usable lt el_dv bin len /\ part_bins lt el_dv bin <= 1 /\ part_time lt el_dv e 0 < tmin /\ create_wfs [e] lt el_dv bin len tmin = Ok wfs /\ ~ nth 2 (nth 0 wfs []) 0 == 0 /\ light_between lt el_dv [e] 0 (tmin + qn 2 * bin) (tmin + qn 3 * bin) == 0.
Proof.
  exists ex_table, 2, 3, 9, 0, {| ex := 0; ey := 0; et := -(2); eph := 5 |}. eexists. split; [constructor; cbn; lra || lia|]. split; [apply Qleb_le; reflexivity|]. split; [apply Qltb_lt; reflexivity|].
  split; [vm_compute; reflexivity|]. split; [apply Qeqb_neq; reflexivity|]. apply Qeqb_eq. vm_compute. reflexivity.
Qed.
Theorem C46_earlier_refuted : exists lt el_dv bin len tmin e, usable lt el_dv bin len /\ create_wfs [e] lt el_dv bin len tmin = Err IndexError.
Proof. exists ex_table, 2, 3, 9, 0, {| ex := 0; ey := 0; et := -(20); eph := 5 |}. split; [constructor; cbn; lra || lia|]. vm_compute. reflexivity. Qed.
(** a part of the gap crossed in one bin and a half: light at the start of the buffer is lost *)
Theorem C66_fraction_refuted : exists lt el_dv bin len tmin els wfs, usable lt el_dv bin len /\ (forall e, In e els -> tmin <= et e /\ et e + el_gap_width lt / el_dv <= tmin + len) /\ (forall e s k, In e els -> 0 <= light lt s e k) /\ create_wfs els lt el_dv bin len tmin = Ok wfs /\ sumQ (nth 0 wfs []) < all_light lt els 0.
Proof.
  exists ex_table, 2, 2, 8, 0, [{| ex := 0; ey := 0; et := 0; eph := 5 |}]. eexists. split; [constructor; cbn; lra || lia|].
  split; [intros e [<-|[]]; split; apply Qleb_le; reflexivity|]. split.
  - intros e s k [<-|[]]. unfold light. cbn [values ex_table ex ey eph]. destruct (Qltb 0 (qn s)); [lra|]. destruct k as [|[|k]]; cbn [nth]; apply Qleb_le; reflexivity.
  - split; [vm_compute; reflexivity|]. apply Qltb_lt. vm_compute. reflexivity.
Qed.
Print Assumptions C47_bins. Print Assumptions C47_total. Print Assumptions C47_conserved. Print Assumptions C47_at_most.
Print Assumptions C46_bins. Print Assumptions C46_smeared. Print Assumptions C46_only. Print Assumptions C46_total.
Print Assumptions C66_buffer. Print Assumptions C66_all_light. Print Assumptions C66_event.
Print Assumptions C47_start_refuted. Print Assumptions C46_early_refuted. Print Assumptions C46_earlier_refuted. Print Assumptions C66_fraction_refuted.
