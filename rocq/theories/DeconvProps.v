(** C43: dropping hits redistributes their energy *)
From Verif Require Import Base Arrays PeaksModel PeaksProofs BuffersProofs BuffersEvent WfmProps PmapioProofs DbModel DbProps CorrModel CorrSpec CorrProps CorrMore PaolinaModel PaolinaTracks Graph PsfModel PsfSpec PsfProps PsfSplit PsfPeak DeconvModel DeconvSpec.
From Coq Require Import Relations.
Local Open Scope Q_scope.

Lemma survivors_filter {A} (P : A -> Prop) (p : A -> bool) l : (forall a, In a l -> (p a = true <-> P a)) -> survivors P l (filter p l).
Proof.
  induction l as [|a l IH]; intros H; cbn; [constructor|]. assert (E := H a (or_introl eq_refl)). destruct (p a); constructor; try (apply IH; intros; apply H; now right); [now apply E|]. intros K. apply E in K. discriminate.
Qed.
Lemma survivors_unique {A} (P : A -> Prop) l m m' : survivors P l m -> survivors P l m' -> m = m'.
Proof. intros H. revert m'. induction H as [|a l m Pa H IH|a l m Pa H IH]; intros m' K; inversion K; subst; try contradiction; try reflexivity; [f_equal|]; now apply IH. Qed.
Lemma redistribute_spec n all pass out : redistribute n all pass = Ok out -> redistributed n all pass out.
Proof.
  unfold redistribute. destruct pass as [|h0 p0] eqn:P; [intros E; injection E as <-; split; [congruence|constructor]|]. rewrite <- P. destruct (existsb _ _) eqn:Z; [discriminate|]. intros E. injection E as <-. clear P h0 p0.
  assert (NZ : forall i, (i < n)%nat -> ~ total i pass == 0).
  { intros i Hi K. assert (C : existsb (fun i => Qeqb (column i pass) 0) (seq 0 n) = true); [|congruence]. apply existsb_exists. exists i. split; [apply in_seq; lia|]. apply Qeqb_eq. exact K. }
  split; [intros; now apply NZ|]. clear Z NZ. assert (forall q, Forall2 (fun h h' => same_hit h h' /\ forall i, (i < n)%nat -> nth i (dvars h') 0 == nth i (dvars h) 0 * (total i all / total i pass)) q (map (fun h => set_vars h (mapi (fun i v => v * (column i all / column i pass)) (dvars h))) q)); [|auto].
  induction q as [|h q IH]; cbn [map]; constructor; [|assumption]. split.
  - unfold same_hit, set_vars. cbn. rewrite length_mapi. repeat split; reflexivity.
  - intros i Hi. unfold set_vars. cbn [dvars]. destruct (lt_dec i (length (dvars h))) as [L|L].
    + rewrite (nth_mapi _ _ i 0) by assumption. reflexivity.
    + rewrite !nth_overflow; [lra| |]; rewrite ?length_mapi; lia.
Qed.
(** the totals of the redistributed variables are kept, and so are the ratios between the hits *)
Theorem C43_conserved n all kept out : redistributed n all kept out -> kept <> [] -> forall i, (i < n)%nat ->
  total i out == total i all
  /\ forall a b h k h' k', nth_error kept a = Some h -> nth_error kept b = Some k -> nth_error out a = Some h' -> nth_error out b = Some k' ->
     nth i (dvars h') 0 * nth i (dvars k) 0 == nth i (dvars k') 0 * nth i (dvars h) 0.
Proof.
  intros [NZ F] NE i Hi. specialize (NZ i Hi NE). set (r := total i all / total i kept).
  assert (F' : Forall2 (fun h h' => nth i (dvars h') 0 == nth i (dvars h) 0 * r) kept out) by (eapply Forall2_mono; [|exact F]; intros h h' _ [_ H]; now apply H). clear F. split.
  - assert (E : total i out == total i kept * r).
    { clearbody r. clear NE NZ. unfold total. induction F' as [|h h' l m H F IH]; [unfold sumF; cbn; lra|]. rewrite !sumF_cons, H, IH. ring. }
    rewrite E. unfold r. field. assumption.
  - intros a b h k h' k' H1 H2 H3 H4. clearbody r.
    assert (N : forall a h h', nth_error kept a = Some h -> nth_error out a = Some h' -> nth i (dvars h') 0 == nth i (dvars h) 0 * r).
    { clear - F' Hi. induction F' as [|x x' l m H F IH]; intros [|a] h h' E1 E2; cbn in *; try discriminate; [|eapply IH; eassumption]. injection E1 as <-. injection E2 as <-. exact H. }
    rewrite (N a h h' H1 H3), (N b k k' H2 H4). ring.
Qed.
Print Assumptions C43_conserved.

(** the charge cut keeps exactly the hits above the cut *)
Theorem C43_cut q n df out : cut_and_redistribute q n df = Ok out -> exists kept, survivors (fun h => q < dQ h) df kept /\ redistributed n df kept out.
Proof. intros E. apply redistribute_spec in E. eexists. split; [|exact E]. apply survivors_filter. intros h _. apply Qltb_lt. Qed.
Print Assumptions C43_cut.

Lemma pick_where_filter {A} (p : A -> bool) l : pick_where (map p l) l = filter p l.
Proof. unfold pick_where. induction l as [|a l IH]; cbn; [reflexivity|]. destruct (p a); cbn; now rewrite IH. Qed.
Definition nearest_ok (dx dy : Q) (df : list dhit) (a : dhit) : bool := existsb (fun b => Qltb 0 (d2 a b) && Qle_bool (d2 a b) (dx * dx + dy * dy)) df.
Lemma d2_zero a b : d2 a b <= 0 -> dX a == dX b /\ dY a == dY b.
Proof.
  unfold d2. intros H. assert (K1 := Qsq_nonneg (dX a - dX b)). assert (K2 := Qsq_nonneg (dY a - dY b)).
  assert (Z : forall x : Q, x * x == 0 -> x == 0) by (intros x Hx; apply Qmult_integral in Hx; tauto).
  split; [assert (E := Z (dX a - dX b))|assert (E := Z (dY a - dY b))]; (assert (dX a - dX b == 0 \/ True) by auto); lra || (specialize (E ltac:(lra)); lra).
Qed.
Lemma closest_spec dx dy df a b c : In b df -> In c df -> 0 < d2 b c ->
  match filter (Qltb 0) (map (d2 a) df) with [] => False | ds => Qle_bool (minQ' ds) (dx * dx + dy * dy) = nearest_ok dx dy df a end.
Proof.
  intros Hb Hc P.
  assert (NEF : filter (Qltb 0) (map (d2 a) df) <> []).
  { assert (K : exists d, In d df /\ 0 < d2 a d).
    { destruct (Qlt_le_dec 0 (d2 a b)) as [H|H]; [now exists b|]. exists c. split; [assumption|]. apply d2_zero in H. destruct H as [H1 H2]. unfold d2 in *. rewrite H1, H2. assumption. }
    destruct K as (d & Hd & K). intros E. assert (I : In (d2 a d) (filter (Qltb 0) (map (d2 a) df))) by (apply filter_In; split; [now apply in_map|now apply Qltb_lt]). rewrite E in I. destruct I. }
  destruct (filter (Qltb 0) (map (d2 a) df)) as [|x ds] eqn:E; [congruence|]. clear NEF. assert (M := min_lowest (x :: ds) ltac:(discriminate)). rewrite <- E in M |- *. destruct M as [M1 M2]. set (m := minQ' _) in *. clearbody m.
  unfold nearest_ok. destruct (existsb _ df) eqn:X.
  - apply existsb_exists in X. destruct X as (d & Hd & X). apply andb_true_iff in X. destruct X as [X1 X2]. apply Qltb_lt in X1. apply Qleb_le in X2. apply Qleb_le. assert (m <= d2 a d) by (apply M2, filter_In; split; [now apply in_map|now apply Qltb_lt]). lra.
  - apply Qleb_gt. destruct (Qlt_le_dec (dx * dx + dy * dy) m) as [H|H]; [assumption|]. exfalso. apply filter_In in M1. destruct M1 as [M1 M3]. apply in_map_iff in M1. destruct M1 as (d & <- & Hd).
    assert (C : existsb (fun b => Qltb 0 (d2 a b) && Qle_bool (d2 a b) (dx * dx + dy * dy)) df = true); [|congruence]. apply existsb_exists. exists d. split; [assumption|]. apply andb_true_iff. split; [assumption|now apply Qleb_le].
Qed.
Lemma nearest_iff dx dy df a : nearest_ok dx dy df a = true <-> has_neighbour dx dy df a.
Proof. unfold nearest_ok, has_neighbour. rewrite existsb_exists. unfold d2, dist2. setoid_rewrite andb_true_iff. setoid_rewrite Qltb_lt. setoid_rewrite Qleb_le. reflexivity. Qed.
Lemma sensors_eq dx dy n df : drop_isolated_sensors dx dy n df = redistribute n df (filter (nearest_ok dx dy df) df).
Proof.
  unfold drop_isolated_sensors. destruct (existsb _ df) eqn:X; cbn [negb].
  - apply existsb_exists in X. destruct X as (b & Hb & X). apply existsb_exists in X. destruct X as (c & Hc & X). apply Qltb_lt in X.
    assert (R : rmap (fun a => match filter (Qltb 0) (map (d2 a) df) with [] => Err ValueError | ds => Ok (Qle_bool (minQ' ds) (dx * dx + dy * dy)) end) df = Ok (map (nearest_ok dx dy df) df)).
    { assert (S := closest_spec dx dy df). assert (G : forall l, rmap (fun a => match filter (Qltb 0) (map (d2 a) df) with [] => Err ValueError | ds => Ok (Qle_bool (minQ' ds) (dx * dx + dy * dy)) end) l = Ok (map (nearest_ok dx dy df) l)); [|apply G].
      induction l as [|a l IH]; cbn [rmap map]; [reflexivity|]. specialize (S a b c Hb Hc X). destruct (filter (Qltb 0) (map (d2 a) df)); [destruct S|]. rewrite S, IH. reflexivity. }
    rewrite R. cbn [rbind]. now rewrite pick_where_filter.
  - rewrite filter_none_in; [reflexivity|]. intros a Ha. destruct (nearest_ok dx dy df a) eqn:N; [|reflexivity]. exfalso. unfold nearest_ok in N. apply existsb_exists in N. destruct N as (b & Hb & N). apply andb_true_iff in N.
    assert (C : existsb (fun a => existsb (fun b => Qltb 0 (d2 a b)) df) df = true); [|congruence]. apply existsb_exists. exists a. split; [assumption|]. apply existsb_exists. exists b. tauto.
Qed.
(** dropping isolated sensors keeps exactly the hits with another one nearby; it never fails to find the closest one *)
Theorem C43_sensors dx dy n df out : drop_isolated_sensors dx dy n df = Ok out -> exists kept, survivors (has_neighbour dx dy df) df kept /\ redistributed n df kept out.
Proof. rewrite sensors_eq. intros E. apply redistribute_spec in E. eexists. split; [|exact E]. apply survivors_filter. intros h _. apply nearest_iff. Qed.
Print Assumptions C43_sensors.

Lemma redistribute_ok n all pass : positive n pass -> exists out, redistribute n all pass = Ok out.
Proof.
  intros P. unfold redistribute. destruct pass as [|h p]; [eexists; reflexivity|]. destruct (existsb _ _) eqn:X; [|eexists; reflexivity]. exfalso. apply existsb_exists in X. destruct X as (i & Hi & X). apply in_seq in Hi. apply Qeqb_eq in X. unfold column in X. rewrite sumF_cons in X.
  assert (0 < nth i (dvars h) 0) by (apply P; [now left|lia]). assert (0 <= sumF (fun h => nth i (dvars h) 0) p) by (apply sumF_nonneg; intros a Ha; apply Qlt_le_weak, P; [now right|lia]). lra.
Qed.
Lemma positive_sub n l m : (forall h, In h m -> In h l) -> positive n l -> positive n m.
Proof. intros S P h Hh. apply P. now apply S. Qed.
(** with positive variables the charge cut and the removal of isolated sensors always give a result *)
Theorem C43_total n df : positive n df -> (forall q, exists out, cut_and_redistribute q n df = Ok out) /\ forall dx dy, exists out, drop_isolated_sensors dx dy n df = Ok out.
Proof.
  intros P. split; [intros q|intros dx dy; rewrite sensors_eq]; apply redistribute_ok; (eapply positive_sub; [|exact P]); intros h Hh; apply filter_In in Hh; tauto.
Qed.
Print Assumptions C43_total.
