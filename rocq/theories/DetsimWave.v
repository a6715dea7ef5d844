(** C46: simulated light lands in the time bin of its emission; C66: the buffer of an event keeps all its light *)
From Verif Require Import Base Arrays PeaksModel PeaksProofs BuffersModel BuffersProofs WfmProps DetsimModel DetsimSpec DetsimProps DetsimWfs.
Local Open Scope Q_scope.

Definition bins (bin len : Q) : nat := Z.to_nat (Qceiling (len / bin)).

Lemma sumF_choose {A} (p : A -> bool) (f : A -> Q) l : ~ sumF (fun a => if p a then f a else 0) l == 0 -> exists a, In a l /\ p a = true /\ ~ f a == 0.
Proof.
  induction l as [|a l IH]; intros H; [exfalso; apply H; reflexivity|]. rewrite sumF_cons in H. destruct (p a) eqn:P.
  - destruct (Qeq_dec (f a) 0) as [Z|Z].
    + rewrite Z, Qplus_0_l in H. destruct (IH H) as (b & ? & ?). exists b. split; [now right|assumption].
    + exists a. split; [now left|]. auto.
  - rewrite Qplus_0_l in H. destruct (IH H) as (b & ? & ?). exists b. split; [now right|assumption].
Qed.
Lemma sumF_exists {A} (f : A -> Q) l : ~ sumF f l == 0 -> exists a, In a l /\ ~ f a == 0.
Proof.
  intros H. destruct (sumF_choose (fun _ => true) f l) as (a & I & _ & N); [exact H|]. eauto.
Qed.

(** the light in successive intervals adds up *)
Lemma light_between_plus lt el_dv els s a b c : a <= b -> b <= c ->
  light_between lt el_dv els s a b + light_between lt el_dv els s b c == light_between lt el_dv els s a c.
Proof.
  intros H1 H2. unfold light_between. rewrite <- sumF_plus. apply sumF_ext. intros e _. rewrite <- sumF_plus. apply sumF_ext. intros k _. cbv zeta. set (t := part_time lt el_dv e k).
  destruct (Qleb_spec a t), (Qltb_spec t b), (Qleb_spec b t), (Qltb_spec t c); cbn [andb]; lra.
Qed.
Lemma light_between_ext lt el_dv els s a b c d : a == c -> b == d -> light_between lt el_dv els s a b == light_between lt el_dv els s c d.
Proof.
  intros H1 H2. unfold light_between. apply sumF_ext. intros e _. apply sumF_ext. intros k _. cbv zeta. set (t := part_time lt el_dv e k).
  destruct (Qleb_spec a t), (Qltb_spec t b), (Qleb_spec c t), (Qltb_spec t d); cbn [andb]; lra.
Qed.
Lemma light_between_bins lt el_dv els s tmin bin n : 0 < bin ->
  sumF (fun b => light_between lt el_dv els s (tmin + qn b * bin) (tmin + qn (S b) * bin)) (seq 0 n) == light_between lt el_dv els s tmin (tmin + qn n * bin).
Proof.
  intros B. induction n as [|n IH].
  - cbn [seq]. unfold sumF at 1. cbn [map sumQ]. unfold light_between. symmetry. apply sumF_zero. intros e _. apply sumF_zero. intros k _. cbv zeta. change (qn 0) with 0.
    destruct (Qleb_spec tmin (part_time lt el_dv e k)), (Qltb_spec (part_time lt el_dv e k) (tmin + 0 * bin)); cbn [andb]; lra.
  - rewrite seq_S, sumF_app, IH. cbn [Nat.add]. rewrite sumF_cons. unfold sumF at 1. cbn [map sumQ]. rewrite Qplus_0_r.
    assert (0 <= qn n) by (change 0 with (qn 0); apply qn_le; lia). assert (qn n <= qn (S n)) by (apply qn_le; lia). rewrite light_between_plus by nra. reflexivity.
Qed.

Section Props.
Variable lt : light_table.
Variables el_dv bin len tmin : Q.
Variable els : list electron.
Hypothesis U : usable lt el_dv bin len.
Hypothesis later : forall e, In e els -> tmin <= part_time lt el_dv e 0.

(** when the parts of the gap are crossed within a bin, each bin has the light of its time interval *)
Theorem C46_bins : part_bins lt el_dv bin <= 1 ->
  exists wfs, create_wfs els lt el_dv bin len tmin = Ok wfs /\ length wfs = num_sensors lt /\
  forall s, (s < num_sensors lt)%nat -> length (nth s wfs []) = bins bin len /\
  forall b, (b < bins bin len)%nat -> nth b (nth s wfs []) 0 == light_between lt el_dv els s (tmin + qn b * bin) (tmin + qn (S b) * bin).
Proof using U later.
  intros P. destruct (create_wfs_raw lt el_dv bin len tmin U els later) as (w & E & [S1 S2] & V). unfold part_bins in P.
  assert (C : (Qceiling (el_gap_width lt / qn (length (zbins lt)) / el_dv / bin) <= 1)%Z).
  { pose proof (Qceiling_lt (el_gap_width lt / qn (length (zbins lt)) / el_dv / bin)) as L. destruct (Z_le_gt_dec (Qceiling (el_gap_width lt / qn (length (zbins lt)) / el_dv / bin)) 1) as [?|G]; [assumption|].
    exfalso. assert (1 <= inject_Z (Qceiling (el_gap_width lt / qn (length (zbins lt)) / el_dv / bin) - 1)) by (change 1 with (inject_Z 1); rewrite <- Zle_Qle; lia). lra. }
  destruct (Z.ltb_spec 1 (Qceiling (el_gap_width lt / qn (length (zbins lt)) / el_dv / bin))); [lia|]. exists w. split; [assumption|]. split; [assumption|].
  intros s Hs. split; [now apply S2|]. intros b Hb. now apply V.
Qed.

(** otherwise the content of each bin is shared by as many bins as it takes to cross a part, around it *)
Theorem C46_smeared : 1 < part_bins lt el_dv bin ->
  let m := Z.to_nat (Qceiling (part_bins lt el_dv bin)) in
  let l := (m / 2)%nat in
  let r := (m - l)%nat in
  exists wfs, create_wfs els lt el_dv bin len tmin = Ok wfs /\ length wfs = num_sensors lt /\
  forall s, (s < num_sensors lt)%nat -> length (nth s wfs []) = bins bin len /\
  forall j, (j < bins bin len)%nat -> nth j (nth s wfs []) 0 ==
    sumF (fun h => if ((l <=? h) && (h - l <=? j) && (j <? h + r))%nat
                   then positive (light_between lt el_dv els s (tmin + qn h * bin) (tmin + qn (S h) * bin)) / qn m else 0) (seq 0 (bins bin len)).
Proof using U later.
  intros P m l r. destruct (create_wfs_raw lt el_dv bin len tmin U els later) as (w & E & [S1 S2] & V). fold (part_bins lt el_dv bin) in E.
  assert (C : (2 <= Qceiling (part_bins lt el_dv bin))%Z).
  { pose proof (Qle_ceiling (part_bins lt el_dv bin)) as L. assert (1 < Qceiling (part_bins lt el_dv bin))%Z; [|lia]. rewrite Zlt_Qlt. change (inject_Z 1) with 1. lra. }
  destruct (Z.ltb_spec 1 (Qceiling (part_bins lt el_dv bin))); [|lia].
  assert (L : Z.to_nat (Qceiling (part_bins lt el_dv bin) / 2) = l). { unfold l, m. rewrite Z2Nat.inj_div by lia. reflexivity. }
  assert (R : Z.to_nat (Qceiling (part_bins lt el_dv bin) - Qceiling (part_bins lt el_dv bin) / 2) = r). { unfold r. rewrite <- L. unfold m. rewrite Z2Nat.inj_sub; [reflexivity|]. apply Z.div_pos; lia. }
  assert (M : (l + r)%nat = m). { unfold r. assert (l <= m)%nat; [|lia]. unfold l. apply Nat.div_le_upper_bound; lia. }
  rewrite L, R in E. assert (M0 : (0 < l + r)%nat) by (rewrite M; unfold m; lia). eexists. split; [exact E|]. rewrite map_length. split; [assumption|]. intros s Hs.
  assert (N : nth s (map (fun wf => spread_histogram wf l r) w) [] = spread_histogram (nth s w []) l r).
  { rewrite (nth_indep _ [] (spread_histogram [] l r)) by (rewrite map_length; lia). now rewrite (map_nth (fun wf => spread_histogram wf l r)). }
  rewrite N. destruct (C47_bins (nth s w []) l r M0) as [B1 B2]. rewrite B1. split; [now apply S2|]. intros j Hj. rewrite S2 in B2 by assumption. rewrite B2 by assumption. apply sumF_ext. intros h Hh. apply in_seq in Hh.
  unfold share. rewrite M. destruct (_ && _); [|reflexivity]. apply Qdiv_comp; [|reflexivity]. unfold positive. rewrite V; [reflexivity|assumption|]. unfold bins in Hh. lia.
Qed.

(** a sensor has light in a bin only if an electron crosses the gap in the time of the bin *)
Theorem C46_only : part_bins lt el_dv bin <= 1 -> forall wfs s b, create_wfs els lt el_dv bin len tmin = Ok wfs -> ~ nth b (nth s wfs []) 0 == 0 ->
  exists e, In e els /\ tmin + qn b * bin < et e + el_gap_width lt / el_dv /\ et e < tmin + qn (S b) * bin.
Proof using U later.
  intros P wfs s b E N. destruct (C46_bins P) as (w & E' & S1 & S2). rewrite E' in E. injection E as <-.
  destruct (le_lt_dec (num_sensors lt) s) as [G|G]; [exfalso; apply N; rewrite (nth_overflow w) by lia; now destruct b|]. destruct (S2 s G) as [S3 S4].
  destruct (le_lt_dec (bins bin len) b) as [G'|G']; [exfalso; apply N; now rewrite (nth_overflow (nth s w [])) by lia|]. rewrite S4 in N by assumption.
  unfold light_between in N. apply sumF_exists in N. destruct N as (e & He & N). cbv zeta in N. apply (sumF_choose (fun k => Qle_bool (tmin + qn b * bin) (part_time lt el_dv e k) && Qltb (part_time lt el_dv e k) (tmin + qn (S b) * bin))) in N.
  destruct N as (k & Hk & B & _). apply andb_true_iff in B. destruct B as [B1 B2]. apply Qleb_le in B1. apply Qltb_lt in B2. exists e. split; [assumption|]. apply in_seq in Hk.
  destruct U as [H1 H2 H3 H4 H5]. set (n := length (zbins lt)) in *. assert (Qn : 0 < qn n) by (apply qn_pos; lia). assert (K : 0 <= qn k) by (change 0 with (qn 0); apply qn_le; lia).
  assert (K2 : qn k + 1 <= qn n). { replace (qn k + 1) with (qn k + qn 1) by reflexivity. assert (E : qn k + qn 1 == qn (k + 1)) by (unfold qn; now rewrite Nat2Z.inj_add, inject_Z_plus). rewrite E. apply qn_le. lia. }
  unfold part_time in *. fold n in B1, B2. set (g := el_gap_width lt / el_dv) in *. assert (G0 : 0 < g) by (unfold g; apply Qlt_shift_div_l; [assumption|]; rewrite Qmult_0_l; assumption).
  assert (E : (qn k + (1 # 2)) * (el_gap_width lt / qn n) / el_dv == (qn k + (1#2)) / qn n * g) by (unfold g; field; split; lra). rewrite E in B1, B2.
  assert (F1 : 0 < (qn k + (1#2)) / qn n) by (apply Qlt_shift_div_l; [assumption|]; lra). assert (F2 : (qn k + (1#2)) / qn n < 1) by (apply Qlt_shift_div_r; [assumption|]; lra).
  revert F1 F2 B1 B2. generalize ((qn k + (1#2)) / qn n). intros q F1 F2 B1 B2. split; nra.
Qed.

(** the light after the end is dropped and no other *)
Theorem C46_total : part_bins lt el_dv bin <= 1 -> forall wfs s, create_wfs els lt el_dv bin len tmin = Ok wfs -> (s < num_sensors lt)%nat ->
  sumQ (nth s wfs []) == light_between lt el_dv els s tmin (tmin + qn (bins bin len) * bin).
Proof using U later.
  intros P wfs s E Hs. destruct (C46_bins P) as (w & E' & S1 & S2). rewrite E' in E. injection E as <-. destruct (S2 s Hs) as [S3 S4]. rewrite sum_nth, S3.
  rewrite <- light_between_bins by apply U. apply sumF_ext. intros b Hb. apply in_seq in Hb. apply S4. lia.
Qed.
End Props.
Print Assumptions C46_bins.
Print Assumptions C46_smeared.
Print Assumptions C46_only.
Print Assumptions C46_total.
