(** C132: the waveforms of the generator *)
From Verif Require Import Base PeaksModel WgenModel WgenSpec.
Local Open Scope Q_scope.

Lemma qn_plus a b : qn (a + b) == qn a + qn b.
Proof. unfold qn. rewrite Nat2Z.inj_add, inject_Z_plus. reflexivity. Qed.
Lemma qn_pos n : (0 < n)%nat -> 0 < qn n.
Proof. intros H. unfold qn. change 0 with (inject_Z 0). rewrite <- Zlt_Qlt. lia. Qed.
Lemma line_up f r i q : (0 < r)%nat -> line (qn (f + i)) (qn f, 0) (qn (f + r), q) == q * qn i / qn r.
Proof. intros H. pose proof (qn_pos r H). unfold line. cbn [fst snd]. rewrite !qn_plus. field. repeat split; lra. Qed.
Lemma line_down f r i q : (0 < r)%nat -> line (qn (f + i)) (qn f, q) (qn (f + r), 0) == q * (qn r - qn i) / qn r.
Proof. intros H. pose proof (qn_pos r H). unfold line. cbn [fst snd]. rewrite !qn_plus. field. repeat split; lra. Qed.
Lemma qn_sub a b : (b <= a)%nat -> qn (a - b) == qn a - qn b.
Proof. intros H. unfold qn. rewrite Nat2Z.inj_sub by exact H. unfold Zminus. rewrite inject_Z_plus, inject_Z_opp. reflexivity. Qed.

Definition draw_of (w : wfmpar) (i : nat) : nat * nat :=
  if (i <? t_pre w)%nat then (0, i)%nat else if (i <? t_pre w + t_rise w)%nat then (1, i - t_pre w)%nat else
  if (i <? t_pre w + t_rise w + t_flat w)%nat then (2, i - (t_pre w + t_rise w))%nat else
  if (i <=? pulse_end w)%nat then (3, i - (t_pre w + t_rise w + t_flat w))%nat else (4, i - pulse_end w)%nat.
Ltac cmp := repeat match goal with |- context[(?a <=? ?b)%nat] => destruct (Nat.leb_spec a b); try lia | |- context[(?a <? ?b)%nat] => destruct (Nat.ltb_spec a b); try lia end.
Lemma draw_inj w i j : draw_of w i = draw_of w j -> i = j.
Proof. unfold draw_of, pulse_end. cmp; intros E; injection E; lia. Qed.
Lemma draw_second w i : draw_of w i <> (4, 0)%nat.
Proof. unfold draw_of. cmp; intros E; injection E; lia. Qed.
Lemma square_values randn w : (0 < t_rise w)%nat -> (square_waveform randn w = Err AssertionError <-> (t_tot w <= pulse_end w)%nat) /\
  ((pulse_end w < t_tot w)%nat -> exists wf, square_waveform randn w = Ok wf /\ length wf = t_tot w /\
   forall i, (i < t_tot w)%nat -> exists y x r, nth_error wf i = Some y /\ pulse w i x /\ y == x + noise w * r /\
     (i <> pulse_end w -> r == randn (fst (draw_of w i)) (snd (draw_of w i))) /\ (i = pulse_end w -> r == randn (fst (draw_of w i)) (snd (draw_of w i)) + randn 4%nat 0%nat)).
Proof.
  intros R. assert (A : (2 * t_rise w + t_flat w + t_pre w <? t_tot w)%nat = (pulse_end w <? t_tot w)%nat) by (f_equal; unfold pulse_end; lia).
  unfold square_waveform. rewrite A. destruct (Nat.ltb_spec (pulse_end w) (t_tot w)) as [L|L]; cbn [negb].
  2:{ split; [split; [intros _; exact L|reflexivity]|intros K; lia]. }
  destruct (Nat.eqb_spec (t_rise w) 0) as [Z|_]; [lia|]. split; [split; [intros K; discriminate K|lia]|]. intros _. eexists. split; [reflexivity|]. split; [now rewrite map_length, seq_length|].
  intros i Hi. rewrite (map_nth_error _ i (seq 0 (t_tot w)) (d := i)).
  2:{ rewrite (nth_error_nth' _ 0%nat) by now rewrite seq_length. now rewrite seq_nth. }
  pose proof (qn_pos _ R) as P. assert (P' : ~ qn (t_rise w) == 0) by lra.
  eexists. unfold assign, zeros. set (p := t_pre w) in *. set (r := t_rise w) in *. set (f := t_flat w) in *. set (e := pulse_end w). assert (Ee : e = (p + r + f + r)%nat) by reflexivity.
  destruct (Nat.lt_ge_cases i p) as [C1|C1]; [|destruct (Nat.lt_ge_cases i (p + r)) as [C2|C2]; [|destruct (Nat.lt_ge_cases i (p + r + f)) as [C3|C3]; [|destruct (Nat.lt_ge_cases i e) as [C4|C4]]]].
  - exists 0, (randn 0%nat i). split; [reflexivity|]. split; [unfold pulse; fold p r f e; repeat split; intros; try lia; reflexivity|]. split.
    + repeat match goal with |- context[(?a <=? ?b)%nat] => destruct (Nat.leb_spec a b); try lia | |- context[(?a <? ?b)%nat] => destruct (Nat.ltb_spec a b); try lia end; cbn [andb]; rewrite ?Nat.sub_0_r; subst p r f e; ring.
    + split; [intros _; unfold draw_of; cmp; subst p r f e; reflexivity|lia].
  - exists (q_s2 w * qn (i - p) / qn r), (randn 1%nat (i - p)%nat). split; [reflexivity|]. split; [|split].
    + unfold pulse; fold p r f e. split; [intros K; replace (i - p)%nat with 0%nat by lia; change (qn 0) with 0; field; exact P'|]. split; [intros _; field; exact P'|]. split; [lia|]. split; lia.
    + repeat match goal with |- context[(?a <=? ?b)%nat] => destruct (Nat.leb_spec a b); try lia | |- context[(?a <? ?b)%nat] => destruct (Nat.ltb_spec a b); try lia end; cbn [andb]; rewrite line_up by exact R; subst p r f e; ring.
    + split; [intros _; unfold draw_of; cmp; subst p r f e; reflexivity|lia].
  - exists (q_s2 w), (randn 2%nat (i - (p + r))%nat). split; [reflexivity|]. split; [|split].
    + unfold pulse; fold p r f e. split; [lia|]. split; [intros K; replace (i - p)%nat with r by lia; reflexivity|]. split; [reflexivity|]. split; lia.
    + repeat match goal with |- context[(?a <=? ?b)%nat] => destruct (Nat.leb_spec a b); try lia | |- context[(?a <? ?b)%nat] => destruct (Nat.ltb_spec a b); try lia end; cbn [andb]; subst p r f e; ring.
    + split; [intros _; unfold draw_of; cmp; subst p r f e; reflexivity|lia].
  - exists (q_s2 w * qn (e - i) / qn r), (randn 3%nat (i - (p + r + f))%nat). split; [reflexivity|]. split; [|split].
    + unfold pulse; fold p r f e. split; [lia|]. split; [intros K; replace (e - i)%nat with r by lia; replace (i - p)%nat with r by lia; field; exact P'|]. split; [intros K; replace (e - i)%nat with r by lia; field; exact P'|]. split; [intros _; field; exact P'|lia].
    + repeat match goal with |- context[(?a <=? ?b)%nat] => destruct (Nat.leb_spec a b); try lia | |- context[(?a <? ?b)%nat] => destruct (Nat.ltb_spec a b); try lia end; cbn [andb]; rewrite line_down by exact R; replace (e - i)%nat with (r - (i - (p + r + f)))%nat by lia; rewrite (qn_sub r) by lia; subst p r f e; ring.
    + split; [intros _; unfold draw_of; cmp; subst p r f e; reflexivity|lia].
  - destruct (Nat.eq_dec i e) as [E|E].
    + exists 0, (randn 3%nat r + randn 4%nat 0%nat). split; [reflexivity|]. split; [|split].
      * unfold pulse; fold p r f e. split; [lia|]. split; [lia|]. split; [lia|]. split; [intros _; replace (e - i)%nat with 0%nat by lia; change (qn 0) with 0; ring|reflexivity].
      * repeat match goal with |- context[(?a <=? ?b)%nat] => destruct (Nat.leb_spec a b); try lia | |- context[(?a <? ?b)%nat] => destruct (Nat.ltb_spec a b); try lia end; cbn [andb]; rewrite line_down by exact R. subst p r f e. replace (i - (t_pre w + t_rise w + t_flat w))%nat with (t_rise w) by lia. replace (i - (t_pre w + t_rise w + t_flat w + t_rise w))%nat with 0%nat by lia. field. exact P'.
      * split; [lia|]. intros _. unfold draw_of. cmp. cbn [fst snd]. replace (i - (t_pre w + t_rise w + t_flat w))%nat with r by lia. reflexivity.
    + exists 0, (randn 4%nat (i - e)%nat). split; [reflexivity|]. split; [unfold pulse; fold p r f e; repeat split; intros; try lia; reflexivity|]. split.
      * repeat match goal with |- context[(?a <=? ?b)%nat] => destruct (Nat.leb_spec a b); try lia | |- context[(?a <? ?b)%nat] => destruct (Nat.ltb_spec a b); try lia end; cbn [andb]; subst p r f e; unfold pulse_end; ring.
      * split; [intros _; unfold draw_of; cmp; subst p r f e; reflexivity|lia].
Qed.
(** A square waveform is refused if and only if the pulse does not end before the waveform. Otherwise it has the samples asked for, each with the value of the pulse and the noise drawn for it; the noise is drawn once for each sample, but twice for that in which the pulse ends. *)
Theorem C132_square w : (0 < t_rise w)%nat ->
  (forall randn, square_waveform randn w = Err AssertionError <-> (t_tot w <= pulse_end w)%nat) /\
  ((pulse_end w < t_tot w)%nat -> exists (draw : nat -> nat * nat) (second : nat * nat), (forall i j, draw i = draw j -> i = j) /\ (forall i, draw i <> second) /\
   forall randn, let drawn d := randn (fst d) (snd d) in exists wf, square_waveform randn w = Ok wf /\ length wf = t_tot w /\
   forall i, (i < t_tot w)%nat -> exists y x r, nth_error wf i = Some y /\ pulse w i x /\ y == x + noise w * r /\
     (i <> pulse_end w -> r == drawn (draw i)) /\ (i = pulse_end w -> r == drawn (draw i) + drawn second)).
Proof.
  intros R. split; [intros randn; now apply square_values|]. intros L. exists (draw_of w), (4, 0)%nat. split; [apply draw_inj|]. split; [apply draw_second|].
  intros randn drawn. now apply (square_values randn w R).
Qed.
Print Assumptions C132_square.

Lemma linspace_length a b n : length (linspace a b n) = n.
Proof. destruct n as [|[|n]]; [reflexivity|reflexivity|]. unfold linspace. now rewrite map_length, seq_length. Qed.
(** A sawteeth waveform has as many samples as asked for if and only if the rise and the flat part of a tooth have the same; in general it has three times the difference more. *)
Theorem C132_sawteeth w : (sawteeth_waveform w = Err ValueError <-> (t_tot w < t_pre w + 3 * (t_rise w + 2 * t_flat w))%nat) /\
  forall wf, sawteeth_waveform w = Ok wf -> (length wf + 3 * t_flat w = t_tot w + 3 * t_rise w)%nat /\ (length wf = t_tot w <-> t_rise w = t_flat w).
Proof.
  unfold sawteeth_waveform. set (rest := (Z.of_nat (t_tot w) - Z.of_nat (t_pre w) - 3 * (Z.of_nat (t_rise w) + 2 * Z.of_nat (t_flat w)))%Z). assert (E0 : (rest + Z.of_nat (t_pre w) + 3 * (Z.of_nat (t_rise w) + 2 * Z.of_nat (t_flat w)) = Z.of_nat (t_tot w))%Z) by (unfold rest; lia). clearbody rest. destruct (Z.ltb_spec rest 0) as [L|L].
  - split; [split; [lia|reflexivity]|]. intros wf E. discriminate E.
  - split; [split; [intros K; discriminate K|lia]|]. intros wf E. injection E as <-. rewrite !app_length, !repeat_length, !linspace_length. lia.
Qed.
Print Assumptions C132_sawteeth.
Lemma linspace_nth a b n i : (i < n)%nat -> exists x, nth_error (linspace a b n) i = Some x /\ x * qn (n - 1) == a * qn (n - 1) + qn i * (b - a) /\ (a == b -> x == a).
Proof.
  intros H. destruct n as [|[|n]]; [lia| |].
  - replace i with 0%nat by lia. exists a. split; [reflexivity|]. change (qn (1 - 1)) with 0. change (qn 0) with 0. split; [ring|reflexivity].
  - unfold linspace. rewrite (map_nth_error _ i (seq 0 (S (S n))) (d := i)).
    2:{ rewrite (nth_error_nth' _ 0%nat) by now rewrite seq_length. now rewrite seq_nth. }
    eexists. split; [reflexivity|]. assert (P : 0 < qn (S (S n) - 1)) by (apply qn_pos; lia). split; [field; lra|]. intros E. rewrite E. field. lra.
Qed.
Lemma tooth_nth w i : (i < tooth_length w)%nat ->
  exists x, nth_error (linspace 0 (q_s2 w) (t_rise w) ++ linspace (q_s2 w) (q_s2 w) (t_flat w) ++ linspace (q_s2 w) 0 (t_rise w)) i = Some x /\ tooth_value w i x.
Proof.
  unfold tooth_length, tooth_value. intros H. destruct (Nat.lt_ge_cases i (t_rise w)) as [A|A].
  - rewrite nth_error_app1 by now rewrite linspace_length. destruct (linspace_nth 0 (q_s2 w) _ _ A) as (x & E & V & _). exists x. split; [exact E|]. split; [intros _; rewrite V; ring|]. split; lia.
  - rewrite nth_error_app2 by now rewrite linspace_length. rewrite linspace_length. destruct (Nat.lt_ge_cases i (t_rise w + t_flat w)) as [B|B].
    + rewrite nth_error_app1 by (rewrite linspace_length; lia). destruct (linspace_nth (q_s2 w) (q_s2 w) (t_flat w) (i - t_rise w)) as (x & E & _ & V); [lia|]. exists x. split; [exact E|]. split; [lia|]. split; [intros _; apply V; reflexivity|lia].
    + rewrite nth_error_app2 by (rewrite linspace_length; lia). rewrite linspace_length. destruct (linspace_nth (q_s2 w) 0 (t_rise w) (i - t_rise w - t_flat w)) as (x & E & V & _); [lia|]. exists x. split; [exact E|]. split; [lia|]. split; [lia|]. intros _.
      unfold tooth_length. replace (2 * t_rise w + t_flat w - 1 - i)%nat with (t_rise w - 1 - (i - t_rise w - t_flat w))%nat by lia. rewrite V, (qn_sub (t_rise w - 1)) by lia. ring.
Qed.
(** A sawteeth waveform is zero before the teeth and after them, and there are three, one next to the other. *)
Theorem C132_teeth w wf : sawteeth_waveform w = Ok wf ->
  (forall i, (i < t_pre w)%nat -> nth_error wf i = Some 0) /\
  (forall k i, (k < 3)%nat -> (i < tooth_length w)%nat -> exists x, nth_error wf (t_pre w + k * tooth_length w + i) = Some x /\ tooth_value w i x) /\
  forall i, (t_pre w + 3 * tooth_length w <= i < length wf)%nat -> nth_error wf i = Some 0.
Proof.
  unfold sawteeth_waveform. set (T := linspace 0 (q_s2 w) (t_rise w) ++ linspace (q_s2 w) (q_s2 w) (t_flat w) ++ linspace (q_s2 w) 0 (t_rise w)).
  set (rest := (Z.of_nat (t_tot w) - Z.of_nat (t_pre w) - 3 * (Z.of_nat (t_rise w) + 2 * Z.of_nat (t_flat w)))%Z). clearbody rest.
  assert (LT : length T = tooth_length w) by (unfold T, tooth_length; rewrite !app_length, !linspace_length; lia).
  pose proof (tooth_nth w) as V. fold T in V. clearbody T. destruct (rest <? 0)%Z; intros E; [discriminate E|]. injection E as <-.
  split; [|split].
  - intros i Hi. rewrite nth_error_app1 by now rewrite repeat_length. now apply nth_error_repeat.
  - intros k i Hk Hi. destruct (V i Hi) as (x & Ex & Vx). exists x. split; [|exact Vx]. rewrite nth_error_app2 by (rewrite repeat_length; lia). rewrite repeat_length.
    replace (t_pre w + k * tooth_length w + i - t_pre w)%nat with (k * length T + i)%nat by lia. rewrite <- LT in Hi.
    destruct k as [|[|[|k]]]; [| | |lia].
    + now rewrite nth_error_app1 by lia.
    + rewrite nth_error_app2 by lia. rewrite nth_error_app1 by lia. now replace (1 * length T + i - length T)%nat with i by lia.
    + rewrite nth_error_app2 by lia. rewrite nth_error_app2 by lia. rewrite nth_error_app1 by lia. now replace (2 * length T + i - length T - length T)%nat with i by lia.
  - intros i. rewrite !app_length, !repeat_length, LT. intros Hi. rewrite nth_error_app2 by (rewrite repeat_length; lia). rewrite repeat_length. rewrite !nth_error_app2 by lia. apply nth_error_repeat. lia.
Qed.
Print Assumptions C132_teeth.
(** Shown false: that a sawteeth waveform has the samples asked for. *)
Definition ex_par : wfmpar := {| t_tot := 20; t_pre := 1; t_rise := 2; t_flat := 1; noise := 0; q_s2 := 6 |}.
Theorem C132_sawteeth_refuted : ~ forall w wf, sawteeth_waveform w = Ok wf -> length wf = t_tot w.
Proof. intros H. specialize (H ex_par _ eq_refl). discriminate H. Qed.
Print Assumptions C132_sawteeth_refuted.
Example C132_ex : (pulse_end ex_par < t_tot ex_par)%nat /\ (exists wf, square_waveform (fun _ _ => 0) ex_par = Ok wf /\ map Qred (firstn 8 wf) = [0; 0; 3; 6; 6; 3; 0; 0]) /\ exists wf, sawteeth_waveform ex_par = Ok wf /\ length wf = 23%nat.
Proof. split; [cbn; lia|]. split; eexists; split; reflexivity. Qed.
