(** C83: the image given to the deconvolution *)
From Verif Require Import Base Arrays PeaksModel PeaksProofs PeaksMore BuffersModel BuffersProofs BuffersProps S1Model S1Spec S1Props LtModel LtSpec LtProps DinModel DinSpec.
From Verif Require CorrModel PaolinaDrop TopoTrack BuffersEvent WfmProps SpeProps.
From Coq Require Import FinFun.
Local Open Scope Q_scope.

(** ---- products ---- *)
Lemma product_in {A} (axes : list (list A)) p : In p (product axes) <-> Forall2 (fun x a => In x a) p axes.
Proof.
  revert p. induction axes as [|a axes IH]; intros p; cbn [product].
  - split; [intros [<-|[]]; constructor|]. intros F. inversion F. now left.
  - rewrite in_flat_map. setoid_rewrite in_map_iff. split.
    + intros (x & Hx & q & <- & Hq). constructor; [assumption|now apply IH].
    + intros F. inversion F as [|x a' q axes' Hx Hq]; subst. exists x. split; [assumption|]. exists q. split; [reflexivity|now apply IH].
Qed.
Lemma product_nodup {A} (axes : list (list A)) : Forall (@NoDup A) axes -> NoDup (product axes).
Proof.
  induction axes as [|a axes IH]; intros F; cbn [product]; [constructor; [tauto|constructor]|]. inversion F as [|? ? Na Fa]; subst. specialize (IH Fa). clear F Fa. revert IH Na. generalize (product axes) as P. intros P NP. induction a as [|x a IHa]; intros Na; cbn [flat_map]; [constructor|]. apply NoDup_cons_iff in Na as [N1 N2]. apply NoDup_app_disjoint; [|now apply IHa|].
  - apply Injective_map_NoDup; [|assumption]. intros u v E. now injection E.
  - intros q Hq Hq'. apply in_map_iff in Hq as (r & <- & _). apply in_flat_map in Hq' as (y & Hy & Hq'). apply in_map_iff in Hq' as (r' & E & _). injection E as -> _. contradiction.
Qed.
Lemma product_map {A B C} (f : A -> B -> C) (g : A -> list B) (es : list A) : product (map (fun e => map (f e) (g e)) es) = map (fun cell => map2 f es cell) (product (map g es)).
Proof.
  induction es as [|e es IH]; [reflexivity|]. cbn [map product]. rewrite IH. generalize (product (map g es)) as P. intros P. induction (g e) as [|b l IHl]; [reflexivity|]. cbn [map flat_map]. rewrite IHl, map_app, !map_map. reflexivity.
Qed.
(** ---- one dimension ---- *)
Lemma never_decreases_le e : never_decreases e = true -> forall i j, (i <= j)%nat -> (j < length e)%nat -> nth i e 0 <= nth j e 0.
Proof.
  induction e as [|a e IH]; intros N i j Hij Hj; [cbn in Hj; lia|]. destruct e as [|b e]; [cbn [length] in Hj; destruct i, j; try lia; lra|]. change (Qle_bool a b && never_decreases (b :: e) = true) in N. apply andb_true_iff in N as [N1 N2]. apply Qleb_le in N1. destruct j as [|j]; [destruct i; [lra|lia]|]. destruct i as [|i].
  - apply Qle_trans with b; [assumption|]. change (b <= nth j (b :: e) 0). apply (IH N2 0%nat j); [lia|cbn [length] in *; lia].
  - apply (IH N2 i j); [lia|cbn [length] in *; lia].
Qed.
Lemma in_edges_iff e i x : in_edges e i x = true <-> nth i e 0 <= x /\ (x < nth (S i) e 0 \/ (S (S i) = length e /\ x <= nth (S i) e 0)).
Proof. unfold in_edges. rewrite andb_true_iff, orb_true_iff, andb_true_iff, Nat.eqb_eq, !Qle_bool_iff, Qltb_lt. tauto. Qed.
Lemma in_edges_unique e i j x : never_decreases e = true -> (i < length e - 1)%nat -> (j < length e - 1)%nat -> in_edges e i x = true -> in_edges e j x = true -> i = j.
Proof.
  intros N Hi Hj Ei Ej. apply in_edges_iff in Ei, Ej. destruct (lt_eq_lt_dec i j) as [[C|C]|C]; [exfalso|assumption|exfalso].
  - pose proof (never_decreases_le e N (S i) j ltac:(lia) ltac:(lia)). destruct Ei as [_ [E|[E _]]]; [lra|lia].
  - pose proof (never_decreases_le e N (S j) i ltac:(lia) ltac:(lia)). destruct Ej as [_ [E|[E _]]]; [lra|lia].
Qed.

(** ---- several dimensions ---- *)
Section Histogram.
  Variables (data edges : list (list Q)) (weight : list Q).
  Hypothesis dims : length edges = length data.
  Hypothesis columns : forall c, In c data -> length c = length weight.
  Hypothesis ordered : forall e, In e edges -> never_decreases e = true.
  Definition is_cell (cell : list nat) : Prop := length cell = length data /\ forall d, (d < length data)%nat -> (nth d cell 0 < length (nth d edges []) - 1)%nat.
  Definition holds (cell : list nat) (k : nat) : Prop := forall d, (d < length data)%nat -> in_edges (nth d edges []) (nth d cell 0%nat) (coordinate data d k) = true.
  Definition entry (cell : list nat) : Q := sumF (fun k => if in_cell data edges cell k then nth k weight 0 else 0) (seq 0 (length weight)).
  Lemma in_cells cell : In cell (cells edges) <-> is_cell cell.
  Proof using All.
    unfold cells, is_cell. rewrite product_in. rewrite <- dims. clear dims columns ordered. revert cell. induction edges as [|e es IH]; intros cell; cbn [map].
    - split; [intros F; inversion F; split; [reflexivity|cbn; lia]|]. intros [L _]. destruct cell; [constructor|discriminate].
    - split.
      + intros F. inversion F as [|i a c as' Hi Hc]; subst. apply in_seq in Hi. apply IH in Hc as [L H]. split; [cbn; lia|]. intros [|d] Hd; cbn [nth length] in *; [lia|]. apply H. lia.
      + intros [L H]. destruct cell as [|i c]; [discriminate|]. constructor; [apply in_seq; specialize (H 0%nat ltac:(cbn; lia)); cbn [nth] in H; lia|]. apply IH. split; [cbn in L; lia|]. intros d Hd. apply (H (S d)). cbn. lia.
  Qed.
  Lemma in_cell_iff cell k : in_cell data edges cell k = true <-> holds cell k.
  Proof using All. unfold in_cell, holds, coordinate. rewrite forallb_forall. split; intros H d Hd; apply H; [apply in_seq; lia|]. apply in_seq in Hd. lia. Qed.
  Lemma histogram_is : histogramdd data edges weight = Ok (map entry (cells edges)).
  Proof using All.
    unfold histogramdd. rewrite dims, Nat.eqb_refl. rewrite (proj2 (forallb_forall _ data)) by (intros c Hc; apply Nat.eqb_eq; now apply columns). rewrite (proj2 (forallb_forall _ edges)) by exact ordered. reflexivity.
  Qed.
  Lemma entry_light cell : light_of weight (holds cell) (entry cell).
  Proof using All.
    exists (filter (in_cell data edges cell) (seq 0 (length weight))). split; [apply NoDup_filter, seq_NoDup|]. split.
    - intros k. rewrite filter_In, in_seq, in_cell_iff. split; intros [H1 H2]; (split; [lia|assumption]).
    - unfold entry. now rewrite sumF_filter_if.
  Qed.
  Lemma cell_unique c c' k : is_cell c -> is_cell c' -> holds c k -> holds c' k -> c = c'.
  Proof using All.
    intros [L1 H1] [L2 H2] K1 K2. apply (nth_ext _ _ 0%nat 0%nat); [congruence|]. intros d Hd. rewrite L1 in Hd. apply (in_edges_unique (nth d edges []) _ _ (coordinate data d k)); auto. apply ordered, nth_In. lia.
  Qed.
  Definition has_cell (k : nat) : Prop := exists c, is_cell c /\ holds c k.
  Lemma total_light : light_of weight has_cell (sumQ (map entry (cells edges))).
  Proof using All.
    set (hb := fun k => existsb (fun c => in_cell data edges c k) (cells edges)).
    assert (Hhb : forall k, hb k = true <-> has_cell k). { intros k. unfold hb, has_cell. rewrite existsb_exists. split; intros (c & H1 & H2); exists c; (split; [now apply in_cells|now apply in_cell_iff]). }
    exists (filter hb (seq 0 (length weight))). split; [apply NoDup_filter, seq_NoDup|]. split; [intros k; rewrite filter_In, in_seq, Hhb; split; intros [H1 H2]; (split; [lia|assumption])|].
    rewrite sumQ_sumF, sumF_map. unfold entry. rewrite sumF_swap. rewrite sumF_filter_if. apply sumF_ext. intros k _. destruct (hb k) eqn:E.
    - apply Hhb in E. destruct E as (c & C1 & C2). assert (Hc : In c (cells edges)) by now apply in_cells. assert (ND : NoDup (cells edges)). { apply product_nodup. apply Forall_forall. intros l Hl. apply in_map_iff in Hl as (e & <- & _). apply seq_NoDup. }
      assert (All' : forall c', In c' (cells edges) -> in_cell data edges c' k = true -> c' = c). { intros c' I1 I2. apply (cell_unique c' c k); [now apply in_cells|assumption|now apply in_cell_iff|assumption]. }
      apply in_cell_iff in C2. revert Hc ND All'. generalize (cells edges) as l. induction l as [|a l IH]; intros Hc ND All'; [destruct Hc|]. apply NoDup_cons_iff in ND as [N1 N2]. rewrite sumF_cons. destruct Hc as [->|Hc].
      + rewrite C2. rewrite sumF_zero; [lra|]. intros c' I'. destruct (in_cell data edges c' k) eqn:E'; [|reflexivity]. exfalso. apply N1. rewrite <- (All' c'); auto. now right.
      + destruct (in_cell data edges a k) eqn:E'; [exfalso; apply N1; rewrite (All' a); auto; now left|]. rewrite IH; auto; [lra|]. intros c' I1. apply All'. now right.
    - apply sumF_zero. intros c Hc. destruct (in_cell data edges c k) eqn:E'; [|reflexivity]. exfalso. apply not_true_iff_false in E. apply E. apply existsb_exists. eauto.
  Qed.
  (** a hit that is in a bin of each dimension is in a cell *)
  Lemma has_cell_iff k : has_cell k <-> forall d, (d < length data)%nat -> exists i, (i < length (nth d edges []) - 1)%nat /\ in_edges (nth d edges []) i (coordinate data d k) = true.
  Proof using All.
    split.
    - intros (c & [L H] & K) d Hd. exists (nth d c 0%nat). auto.
    - intros H. assert (G : forall n, (n <= length data)%nat -> exists c, length c = n /\ forall d, (d < n)%nat -> (nth d c 0 < length (nth d edges []) - 1)%nat /\ in_edges (nth d edges []) (nth d c 0%nat) (coordinate data d k) = true).
      { induction n as [|n IH]; intros Hn; [exists []; split; [reflexivity|intros; lia]|]. destruct IH as (c & L & Hc); [lia|]. destruct (H n ltac:(lia)) as (i & I1 & I2). exists (c ++ [i]). split; [rewrite app_length; cbn; lia|]. intros d Hd. destruct (Nat.eq_dec d n) as [->|]; [rewrite app_nth2, L, Nat.sub_diag by lia; auto|]. rewrite app_nth1 by lia. apply Hc. lia. }
      destruct (G (length data) ltac:(lia)) as (c & L & Hc). exists c. split; [split; [assumption|]; intros d Hd; now apply Hc|]. intros d Hd. now apply Hc.
  Qed.
End Histogram.
Lemma covered e x : never_decreases e = true -> (2 <= length e)%nat -> nth 0 e 0 <= x -> x <= nth (length e - 1) e 0 -> exists i, (i < length e - 1)%nat /\ in_edges e i x = true.
Proof.
  intros N L H1 H2. assert (G : forall n, (n < length e)%nat -> x < nth n e 0 -> exists i, (i < n)%nat /\ nth i e 0 <= x /\ x < nth (S i) e 0).
  { induction n as [|n IH]; intros Hn Hx; [lra|]. destruct (Qlt_le_dec x (nth n e 0)) as [C|C]; [destruct (IH ltac:(lia) C) as (i & I1 & I2); exists i; split; [lia|assumption]|]. exists n. auto. }
  destruct (Qlt_le_dec x (nth (length e - 1) e 0)) as [C|C].
  - destruct (G (length e - 1)%nat ltac:(lia) C) as (i & I1 & I2 & I3). exists i. split; [assumption|]. apply in_edges_iff. auto.
  - exists (length e - 2)%nat. split; [lia|]. apply in_edges_iff. replace (S (length e - 2)) with (length e - 1)%nat by lia. split; [|right; split; [lia|assumption]]. pose proof (never_decreases_le e N (length e - 2) (length e - 1) ltac:(lia) ltac:(lia)). lra.
Qed.
Lemma never_decreases_iff e : (forall i, (S i < length e)%nat -> nth i e 0 <= nth (S i) e 0) -> never_decreases e = true.
Proof.
  induction e as [|a e IH]; intros H; [reflexivity|]. destruct e as [|b e]; [reflexivity|]. change (Qle_bool a b && never_decreases (b :: e) = true). apply andb_true_iff. split; [apply Qle_bool_iff, (H 0%nat); cbn; lia|]. apply IH. intros i Hi. apply (H (S i)). cbn [length] in *. lia.
Qed.
(** bins of the width of the samples *)
Section Samples.
  Variables (mn mx w : Q).
  Hypothesis w_pos : 0 < w.
  Hypothesis le : mn <= mx.
  Let lo := mn - (3 # 2) * w.
  Let e := arange lo (mx + (3 # 2) * w + eps32) w.
  Lemma eps_pos : 0 < eps32. Proof. reflexivity. Qed.
  Lemma samples_length : (4 <= length e)%nat /\ mx < nth (length e - 1) e 0.
  Proof using All.
    unfold e. set (hi := mx + (3 # 2) * w + eps32). pose proof eps_pos. set (n := Z.to_nat (Qceiling ((hi - lo) / w))). assert (L : length (arange lo hi w) = n) by (unfold arange; now rewrite map_length, seq_length).
    assert (Q1 : 3 < (hi - lo) / w). { apply Qlt_shift_div_l; [assumption|]. unfold hi, lo. lra. } pose proof (Qle_ceiling ((hi - lo) / w)) as C. assert (Hc : (4 <= Qceiling ((hi - lo) / w))%Z). { assert (inject_Z 3 < inject_Z (Qceiling ((hi - lo) / w))) as K by (change (inject_Z 3) with 3; lra). rewrite <- Zlt_Qlt in K. lia. }
    split; [rewrite L; unfold n; lia|]. rewrite L. assert (Hn : (n - 1 < length (arange lo hi w))%nat) by (rewrite L; unfold n; lia). rewrite nth_arange by assumption. assert (En : qn (n - 1) == inject_Z (Qceiling ((hi - lo) / w)) - 1). { unfold qn, n. replace (Z.of_nat (Z.to_nat (Qceiling ((hi - lo) / w)) - 1)) with (Qceiling ((hi - lo) / w) + -1)%Z by lia. rewrite inject_Z_plus. reflexivity. } rewrite En.
    assert (K : (hi - lo) / w * w <= inject_Z (Qceiling ((hi - lo) / w)) * w) by (apply Qmult_le_compat_r; lra). assert (E2 : (hi - lo) / w * w == hi - lo) by (field; lra). rewrite E2 in K. unfold hi in *. lra.
  Qed.
  Lemma samples_nth i : (i < length e)%nat -> nth i e 0 = lo + qn i * w.
  Proof using Type. intros H. unfold e. now apply nth_arange. Qed.
  Lemma qn_S i : qn (S i) == qn i + 1.
  Proof using Type. unfold qn. rewrite Nat2Z.inj_succ. unfold Z.succ. rewrite inject_Z_plus. reflexivity. Qed.
  Lemma samples_ordered : never_decreases e = true.
  Proof using All. apply never_decreases_iff. intros i Hi. rewrite !samples_nth by lia. rewrite qn_S. lra. Qed.
  Lemma samples_covered x : mn <= x -> x <= mx -> exists i, (i < length e - 1)%nat /\ in_edges e i x = true.
  Proof using All. intros H1 H2. destruct samples_length as [L1 L2]. apply covered; [apply samples_ordered|lia| |lra]. rewrite samples_nth by lia. unfold lo. change (qn 0) with 0. lra. Qed.
  Lemma samples_around x i : mn <= x -> x <= mx -> (i < length e - 1)%nat -> (in_edges e i x = true <-> around w (nth i e 0 + (nth (S i) e 0 - nth i e 0) * (1 # 2)) x).
  Proof using All.
    intros H1 H2 Hi. destruct samples_length as [L1 L2]. assert (W : w / 2 == w * (1 # 2)) by field. rewrite in_edges_iff. unfold around. rewrite !samples_nth by lia. pose proof (qn_S i) as ES. assert (ES' : qn (S i) * w == qn i * w + w) by (rewrite ES; ring). set (a := qn i * w) in *. set (b := qn (S i) * w) in *. split.
    - intros [K1 [K2|[K2 K3]]]; [split; lra|]. replace (length e - 1)%nat with (S i) in L2 by lia. rewrite samples_nth in L2 by lia. fold b in L2. split; lra.
    - intros [K1 K2]. split; [lra|left; lra].
  Qed.
End Samples.
(** bins of the points of a grid *)
Section Points.
  Variables (c : Q) (l : list Q).
  Let s := c :: l.
  Hypothesis sorted : StronglySorted Qlt s.
  Let e := c :: middles s ++ [last s c].
  Lemma sorted_nth (t : list Q) : StronglySorted Qlt t -> forall i j, (i < j)%nat -> (j < length t)%nat -> nth i t 0 < nth j t 0.
  Proof using Type.
    clear. induction 1 as [|a t S IH F]; intros i j Hij Hj; [cbn in Hj; lia|]. destruct j as [|j]; [lia|]. cbn [length] in Hj. destruct i as [|i]; cbn [nth]; [|apply IH; lia]. rewrite Forall_forall in F. apply F, nth_In. lia.
  Qed.
  Lemma nth_middles (t : list Q) i : (S i < length t)%nat -> nth i (middles t) 0 = (nth (S i) t 0 + nth i t 0) / 2.
  Proof using Type.
    clear. revert i. induction t as [|a t IH]; intros i H; [cbn in H; lia|]. destruct t as [|b t]; [cbn in H; lia|]. change (middles (a :: b :: t)) with ((b + a) / 2 :: middles (b :: t)). destruct i as [|i]; [reflexivity|]. apply (IH i). cbn [length] in *. lia.
  Qed.
  Lemma points_length : length e = S (length s).
  Proof using Type. unfold e. cbn [length]. rewrite app_length. unfold s. rewrite length_middles. cbn. lia. Qed.
  Lemma points_nth i : (0 < i)%nat -> (i < length s)%nat -> nth i e 0 = (nth i s 0 + nth (i - 1) s 0) / 2.
  Proof using Type.
    intros H1 H2. unfold e. destruct i as [|i]; [lia|]. change (nth (S i) (c :: middles s ++ [last s c]) 0) with (nth i (middles s ++ [last s c]) 0). rewrite app_nth1 by (unfold s; rewrite length_middles; unfold s in H2; cbn [length] in H2; lia). rewrite nth_middles by lia. replace (S i - 1)%nat with i by lia. reflexivity.
  Qed.
  Lemma points_last : nth (length s) e 0 = nth (length s - 1) s 0.
  Proof using Type.
    unfold e. change (length s) with (S (length l)). change (nth (S (length l)) (c :: middles s ++ [last s c]) 0) with (nth (length l) (middles s ++ [last s c]) 0). rewrite app_nth2; unfold s at 1; rewrite length_middles; [|lia]. rewrite Nat.sub_diag. cbn [nth].
    assert (G : forall (t : list Q) a d d', last (a :: t) d = nth (length t) (a :: t) d'). { induction t as [|b t IH]; intros a d d'; [reflexivity|]. change (last (a :: b :: t) d) with (last (b :: t) d). rewrite (IH b d d'). reflexivity. }
    unfold s. rewrite (G l c c 0). replace (S (length l) - 1)%nat with (length l) by lia. reflexivity.
  Qed.
  Lemma points_first : nth 0 e 0 = nth 0 s 0. Proof using Type. reflexivity. Qed.
  Lemma points_ordered : never_decreases e = true.
  Proof using All.
    apply never_decreases_iff. intros i Hi. rewrite points_length in Hi. pose proof (sorted_nth s sorted) as S. destruct i as [|i].
    - rewrite points_first. destruct (Nat.eq_dec (length s) 1) as [E|E]; [pose proof points_last as PL; rewrite E in PL; change (1 - 1)%nat with 0%nat in PL; rewrite PL; lra|]. rewrite points_nth by lia. pose proof (S 0%nat 1%nat ltac:(lia) ltac:(lia)). change (1 - 1)%nat with 0%nat. assert (Hh : nth 0 s 0 * 2 <= nth 1 s 0 + nth 0 s 0) by lra. apply Qle_shift_div_l; lra.
    - rewrite (points_nth (Datatypes.S i)) by lia. replace (Datatypes.S i - 1)%nat with i by lia. pose proof (S i (Datatypes.S i) ltac:(lia) ltac:(lia)). destruct (Nat.eq_dec (Datatypes.S (Datatypes.S i)) (length s)) as [E|E].
      + rewrite E, points_last. replace (length s - 1)%nat with (Datatypes.S i) by lia. apply Qle_shift_div_r; lra.
      + rewrite points_nth by lia. replace (Datatypes.S (Datatypes.S i) - 1)%nat with (Datatypes.S i) by lia. pose proof (S (Datatypes.S i) (Datatypes.S (Datatypes.S i)) ltac:(lia) ltac:(lia)). apply Qle_shift_div_l; [lra|]. assert (E0 : (nth (Datatypes.S i) s 0 + nth i s 0) / 2 * 2 == nth (Datatypes.S i) s 0 + nth i s 0) by field. lra.
  Qed.
  Lemma half a b : (a + b) / 2 * 2 == a + b. Proof using Type. field. Qed.
  Lemma points_takes x i : (i < length s)%nat -> (in_edges e i x = true <-> takes s (nth i s 0) x).
  Proof using All.
    intros Hi. pose proof (sorted_nth s sorted) as S. pose proof (never_decreases_le e points_ordered) as M. pose proof points_length as L. rewrite in_edges_iff. unfold takes. split.
    - intros [K1 K2]. assert (K3 : x <= nth (Datatypes.S i) e 0) by (destruct K2 as [K2|[_ K2]]; [lra|assumption]). split; [exists (nth 0 s 0); split; [apply nth_In; lia|rewrite <- points_first; pose proof (M 0%nat i ltac:(lia) ltac:(lia)); lra]|]. split; [exists (nth (length s - 1) s 0); split; [apply nth_In; lia|rewrite <- points_last; pose proof (M (Datatypes.S i) (length s) ltac:(lia) ltac:(lia)); lra]|]. split.
      + intros h Hh Lt. apply (In_nth _ _ 0) in Hh as (j & Hj & <-). assert (j < i)%nat. { destruct (lt_eq_lt_dec j i) as [[C|C]|C]; [assumption|subst; lra|pose proof (S i j C Hj); lra]. } rewrite (points_nth i) in K1 by lia. pose proof (half (nth i s 0) (nth (i - 1) s 0)). assert (nth j s 0 <= nth (i - 1) s 0). { destruct (Nat.eq_dec j (i - 1)) as [->|]; [lra|]. pose proof (S j (i - 1)%nat ltac:(lia) ltac:(lia)). lra. } apply Qle_shift_div_r; lra.
      + intros h Hh Lt. apply (In_nth _ _ 0) in Hh as (j & Hj & <-). assert (i < j)%nat. { destruct (lt_eq_lt_dec j i) as [[C|C]|C]; [pose proof (S j i C Hi); lra|subst; lra|assumption]. } destruct K2 as [K2|[K2 _]]; [|lia]. rewrite (points_nth (Datatypes.S i)) in K2 by lia. replace (Datatypes.S i - 1)%nat with i in K2 by lia. pose proof (half (nth (Datatypes.S i) s 0) (nth i s 0)). assert (nth (Datatypes.S i) s 0 <= nth j s 0). { destruct (Nat.eq_dec j (Datatypes.S i)) as [->|]; [lra|]. pose proof (S (Datatypes.S i) j ltac:(lia) ltac:(lia)). lra. } apply Qlt_shift_div_l; lra.
    - intros ((a & Ha & Ka) & (b & Hb & Kb) & K1 & K2). apply (In_nth _ _ 0) in Ha as (ja & Hja & <-). apply (In_nth _ _ 0) in Hb as (jb & Hjb & <-). split.
      + destruct i as [|i]; [rewrite points_first; destruct ja as [|ja]; [assumption|]; pose proof (S 0%nat (Datatypes.S ja) ltac:(lia) Hja); lra|]. rewrite points_nth by lia. replace (Datatypes.S i - 1)%nat with i by lia. assert (Hi' : (i < length s)%nat) by lia. pose proof (K1 (nth i s 0) (nth_In s 0 Hi') (S i (Datatypes.S i) ltac:(lia) ltac:(lia))). pose proof (half (nth (Datatypes.S i) s 0) (nth i s 0)). pose proof (half (nth i s 0) (nth (Datatypes.S i) s 0)). lra.
      + destruct (Nat.eq_dec (Datatypes.S i) (length s)) as [E|E].
        * right. split; [lia|]. rewrite E, points_last. destruct (Nat.eq_dec jb (length s - 1)) as [<-|]; [assumption|]. pose proof (S jb (length s - 1)%nat ltac:(lia) ltac:(lia)). lra.
        * left. rewrite points_nth by lia. replace (Datatypes.S i - 1)%nat with i by lia. assert (Hi' : (Datatypes.S i < length s)%nat) by lia. pose proof (K2 (nth (Datatypes.S i) s 0) (nth_In s 0 Hi') (S i (Datatypes.S i) ltac:(lia) ltac:(lia))). pose proof (half (nth (Datatypes.S i) s 0) (nth i s 0)). pose proof (half (nth i s 0) (nth (Datatypes.S i) s 0)). lra.
  Qed.
  Lemma points_covered x : (exists a, In a s /\ a <= x) -> (exists b, In b s /\ x <= b) -> exists i, (i < length s)%nat /\ in_edges e i x = true.
  Proof using All.
    intros (a & Ha & Ka) (b & Hb & Kb). pose proof (sorted_nth s sorted) as S. apply (In_nth _ _ 0) in Ha as (ja & Hja & <-). apply (In_nth _ _ 0) in Hb as (jb & Hjb & <-). pose proof points_length as L. destruct (covered e x points_ordered) as (i & I1 & I2); [rewrite L; unfold s; cbn; lia| | |exists i; split; [lia|assumption]].
    - rewrite points_first. destruct ja as [|ja]; [assumption|]. pose proof (S 0%nat (Datatypes.S ja) ltac:(lia) Hja). lra.
    - replace (length e - 1)%nat with (length s) by lia. rewrite points_last. destruct (Nat.eq_dec jb (length s - 1)) as [<-|]; [assumption|]. pose proof (S jb (length s - 1)%nat ltac:(lia) ltac:(lia)). lra.
  Qed.
  Lemma points_reported d i : evenly d s -> (i < length s)%nat -> reported s d i (nth i s 0) (nth i e 0 + (nth (S i) e 0 - nth i e 0) * (1 # 2)).
  Proof using All.
    intros Ev Hi. assert (E : forall j, (S j < length s)%nat -> nth (S j) s 0 == nth j s 0 + d). { intros j Hj. apply (Ev j); apply nth_error_nth'; lia. }
    unfold reported. destruct (Nat.eq_dec i 0) as [->|N0]; [change (0 =? 0)%nat with true|rewrite (proj2 (Nat.eqb_neq i 0) N0)]; (match goal with |- context [(S ?m =? length s)%nat] => destruct (Nat.eqb_spec (S m) (length s)) as [EL|EL] end; cbn [andb negb]).
    - rewrite EL, points_last, points_first, <- EL. change (1 - 1)%nat with 0%nat. ring.
    - rewrite points_first, points_nth by lia. change (1 - 1)%nat with 0%nat. rewrite (E 0%nat) by lia. field.
    - rewrite EL, points_last, points_nth, <- EL by lia. replace (S i - 1)%nat with i by lia. destruct i as [|i]; [lia|]. replace (S i - 1)%nat with i by lia. rewrite (E i) by lia. field.
    - rewrite !points_nth by lia. replace (S i - 1)%nat with i by lia. rewrite (E i) by lia. destruct i as [|i]; [lia|]. replace (S i - 1)%nat with i by lia. rewrite (E i) by lia. field.
  Qed.
End Points.
(** ---- the image ---- *)
Lemma light_ext weight P P' v : (forall k, (k < length weight)%nat -> (P k <-> P' k)) -> light_of weight P v -> light_of weight P' v.
Proof. intros H (ks & N & I1 & E). exists ks. split; [assumption|]. split; [|assumption]. intros k. rewrite I1. split; intros [L K]; (split; [assumption|now apply (H k L)]). Qed.
Lemma light_all weight (P : nat -> Prop) v : (forall k, (k < length weight)%nat -> P k) -> light_of weight P v -> v == sumQ weight.
Proof.
  intros H (ks & N & I1 & E). rewrite E, sumQ_sumF, (sumF_nth (fun x : Q => x) 0 weight). apply sumF_perm, NoDup_Permutation; [assumption|apply seq_NoDup|]. intros k. rewrite I1, in_seq. split; [lia|]. intros Hk. split; [lia|]. apply H. lia.
Qed.
Lemma nth_map_in {A B} (f : A -> B) l i da db : (i < length l)%nat -> nth i (map f l) db = f (nth i l da).
Proof. intros H. rewrite (nth_indep _ db (f da)) by now rewrite map_length. apply map_nth. Qed.
Lemma rmap_map_ok {A B} (f : A -> result B) (g : A -> B) l : (forall a, In a l -> f a = Ok (g a)) -> rmap f l = Ok (map g l).
Proof. induction l as [|a l IH]; intros H; [reflexivity|]. cbn [rmap map]. rewrite (H a) by now left. cbn [rbind]. rewrite IH by (intros; apply H; now right). reflexivity. Qed.
Definition low (c : list Q) : Q := match c with [] => 0 | a :: l => fold_left Qmin l a end.
Definition high (c : list Q) : Q := match c with [] => 0 | a :: l => fold_left Qmax l a end.
Lemma low_least c : c <> [] -> least (low c) c.
Proof. destruct c as [|a l]; intros H; [contradiction|]. split; [apply PaolinaDrop.fold_min_in|]. destruct (BuffersEvent.fold_min l a) as [H1 H2]. intros x [<-|Hx]; [exact H1|now apply H2]. Qed.
Lemma high_greatest c : c <> [] -> greatest (high c) c.
Proof. destruct c as [|a l]; intros H; [contradiction|]. split; [apply TopoTrack.fold_max_in|]. destruct (BuffersEvent.fold_max l a) as [H1 H2]. intros x [<-|Hx]; [exact H1|now apply H2]. Qed.
Definition lims (cs : list Q * Q) : Q * Q := (low (fst cs) - (3 # 2) * snd cs, high (fst cs) + (3 # 2) * snd cs + eps32).
Lemma within_close c w g : c <> [] -> (CorrModel.in_range g (fst (lims (c, w))) (snd (lims (c, w))) = true <-> close_to c w eps32 g).
Proof.
  intros Nc. destruct (low_least c Nc) as [l1 l2]. destruct (high_greatest c Nc) as [h1 h2]. unfold CorrModel.in_range, lims. cbn [fst snd]. rewrite andb_true_iff, Qle_bool_iff, Qltb_lt. split.
  - intros [H1 H2]. exists (low c), (high c). repeat split; assumption.
  - intros (lo & hi & [a1 a2] & [b1 b2] & H1 & H2). specialize (l2 lo a1). specialize (h2 hi b1). specialize (a2 _ l1). specialize (b2 _ h1). split; lra.
Qed.
Section Image.
  Variables (data edges : list (list Q)) (weight : list Q) (key : nat -> nat -> Q) (R : nat -> Q -> Q -> Prop).
  Hypothesis dims : length edges = length data.
  Hypothesis columns : forall c, In c data -> length c = length weight.
  Hypothesis ordered : forall e, In e edges -> never_decreases e = true.
  Hypothesis meaning : forall d i k, (d < length data)%nat -> (i < length (nth d edges []) - 1)%nat -> (k < length weight)%nat -> (in_edges (nth d edges []) i (coordinate data d k) = true <-> R d (key d i) (coordinate data d k)).
  Let cs := cells edges.
  Lemma nth_cell j : (j < length cs)%nat -> is_cell data edges (nth j cs []).
  Proof using All. intros H. apply (in_cells data edges weight); auto. now apply nth_In. Qed.
  Lemma cells_holds j k : (j < length cs)%nat -> (k < length weight)%nat -> (holds data edges (nth j cs []) k <-> forall d, (d < length data)%nat -> R d (key d (nth d (nth j cs []) 0%nat)) (coordinate data d k)).
  Proof using All. intros Hj Hk. destruct (nth_cell j Hj) as [L H]. unfold holds. split; intros K d Hd; apply meaning; auto. Qed.
  Lemma cells_light j : (j < length cs)%nat -> light_of weight (fun k => forall d, (d < length data)%nat -> R d (key d (nth d (nth j cs []) 0%nat)) (coordinate data d k)) (entry data edges weight (nth j cs [])).
  Proof using All. intros Hj. apply (light_ext weight (holds data edges (nth j cs []))); [intros k Hk; now apply cells_holds|]. now apply entry_light. Qed.
  Lemma cells_nodup : NoDup cs.
  Proof using Type. apply product_nodup. apply Forall_forall. intros l Hl. apply in_map_iff in Hl as (e & <- & _). apply seq_NoDup. Qed.
  Lemma cells_one k : (k < length weight)%nat -> has_cell data edges k -> exists j, (j < length cs)%nat /\ (forall d, (d < length data)%nat -> R d (key d (nth d (nth j cs []) 0%nat)) (coordinate data d k)) /\
    forall j', (j' < length cs)%nat -> (forall d, (d < length data)%nat -> R d (key d (nth d (nth j' cs []) 0%nat)) (coordinate data d k)) -> j' = j.
  Proof using All.
    intros Hk (c & C1 & C2). assert (Hc : In c cs) by now apply (in_cells data edges weight). apply (In_nth _ _ []) in Hc as (j & Hj & <-). exists j. split; [assumption|]. split; [now apply cells_holds|].
    intros j' Hj' H'. apply (proj1 (NoDup_nth cs []) cells_nodup j' j Hj' Hj). apply (cell_unique data edges weight dims columns ordered _ _ k); [now apply nth_cell|assumption|now apply cells_holds|assumption].
  Qed.
End Image.
Lemma nth_center d edges cell : length cell = length edges -> (d < length edges)%nat -> nth d (map2 (fun e i => nth i e 0 + (nth (S i) e 0 - nth i e 0) * (1 # 2)) edges cell) 0 = (nth (nth d cell 0%nat) (nth d edges []) 0 + (nth (S (nth d cell 0%nat)) (nth d edges []) 0 - nth (nth d cell 0%nat) (nth d edges []) 0) * (1 # 2)).
Proof. intros L Hd. now rewrite (WfmProps.nth_map2 _ edges cell d [] 0%nat) by auto. Qed.
Lemma bin_points edges : product (map bin_centers edges) = map (fun cell => map2 (fun e i => nth i e 0 + (nth (S i) e 0 - nth i e 0) * (1 # 2)) edges cell) (cells edges).
Proof. unfold bin_centers. now rewrite (product_map (fun e i => nth i e 0 + (nth (S i) e 0 - nth i e 0) * (1 # 2)) (fun e => seq 0 (length e - 1))). Qed.
Lemma forall2_in p ax : Forall2 (fun (x : Q) a => In x a) p ax <-> length p = length ax /\ forall d, (d < length ax)%nat -> In (nth d p 0) (nth d ax []).
Proof.
  revert ax. induction p as [|x p IH]; intros [|a ax].
  - split; [intros _; split; [reflexivity|cbn; lia]|constructor].
  - split; [intros F; inversion F|intros [L _]; discriminate].
  - split; [intros F; inversion F|intros [L _]; discriminate].
  - split.
    + intros F. inversion F as [|? ? ? ? H2 H4]; subst. apply IH in H4 as [H4 H5]. split; [cbn; lia|]. intros [|d] Hd; cbn [nth length] in *; [assumption|]. apply H5. lia.
    + intros [L K]. constructor; [apply (K 0%nat); cbn; lia|]. apply IH. split; [cbn in L; lia|]. intros d Hd. apply (K (S d)). cbn. lia.
Qed.
(** ---- C83, with interpolation ---- *)
Theorem C83_binned griddata m sample_width det_grid data weight : m <> nointerpolation ->
  weight <> [] -> length sample_width = length data -> length det_grid = length data -> (forall c, In c data -> length c = length weight) -> (forall w, In w sample_width -> 0 < w) ->
  exists Hs points new,
    deconvolution_input griddata sample_width det_grid m data weight = Ok (map (fun p => Qmax 0 (match griddata m points Hs p with Some v => v | None => 0 end)) new, new) /\
    length points = length Hs /\
    (forall j v p, nth_error Hs j = Some v -> nth_error points j = Some p -> light_of weight (fun k => forall d, (d < length data)%nat -> around (nth d sample_width 0) (nth d p 0) (coordinate data d k)) v) /\
    (forall k, (k < length weight)%nat -> exists j p, nth_error points j = Some p /\ (forall d, (d < length data)%nat -> around (nth d sample_width 0) (nth d p 0) (coordinate data d k)) /\
      forall j' p', nth_error points j' = Some p' -> (forall d, (d < length data)%nat -> around (nth d sample_width 0) (nth d p' 0) (coordinate data d k)) -> j' = j) /\
    sumQ Hs == sumQ weight /\
    (forall p, In p new <-> length p = length data /\ forall d, (d < length data)%nat -> In (nth d p 0) (nth d det_grid []) /\ close_to (nth d data []) (nth d sample_width 0) eps32 (nth d p 0)).
Proof.
  intros Hm Nw Lw Lg Col Pos. set (rs := map lims (combine data sample_width)). assert (Nc : forall c, In c data -> c <> []) by (intros c Hc ->; apply Nw; apply length_zero_iff_nil; symmetry; exact (Col [] Hc)).
  assert (Rs : ranges data sample_width = Ok rs). { apply rmap_map_ok. intros [c w] H. apply in_combine_l in H. specialize (Nc c H). destruct c; [contradiction|reflexivity]. }
  assert (Lrs : length rs = length data) by (unfold rs; rewrite map_length, combine_length; lia).
  set (edge := fun rw : (Q * Q) * Q => arange (fst (fst rw)) (snd (fst rw)) (snd rw)). set (edges := map edge (combine rs sample_width)).
  assert (Es : rmap (fun rs : (Q * Q) * Q => if Qeqb (snd rs) 0 then Err ZeroDivisionError else Ok (arange (fst (fst rs)) (snd (fst rs)) (snd rs))) (combine rs sample_width) = Ok edges). { apply rmap_map_ok. intros [r w] H. apply in_combine_r in H. cbn [fst snd]. destruct (Qeqb w 0) eqn:E; [|reflexivity]. apply Qeqb_eq in E. specialize (Pos w H). lra. }
  assert (Le : length edges = length data) by (unfold edges; rewrite map_length, combine_length; lia).
  assert (Ne : forall d, (d < length data)%nat -> nth d edges [] = edge (lims (nth d data [], nth d sample_width 0), nth d sample_width 0)).
  { intros d Hd. unfold edges. rewrite (nth_map_in edge _ d ((0, 0), 0)) by (rewrite combine_length; lia). rewrite combine_nth by lia. unfold rs. rewrite (nth_map_in lims _ d ([], 0)) by (rewrite combine_length; lia). rewrite combine_nth by lia. reflexivity. }
  assert (Hd' : forall d, (d < length data)%nat -> In (nth d data []) data /\ 0 < nth d sample_width 0 /\ low (nth d data []) <= high (nth d data [])).
  { intros d Hd. assert (I : In (nth d data []) data) by now apply nth_In. split; [assumption|]. split; [apply Pos, nth_In; lia|]. destruct (low_least _ (Nc _ I)) as [A1 _]. destruct (high_greatest _ (Nc _ I)) as [_ A2]. auto. }
  assert (Hx : forall d k, (d < length data)%nat -> (k < length weight)%nat -> low (nth d data []) <= coordinate data d k /\ coordinate data d k <= high (nth d data [])).
  { intros d k Hd Hk. destruct (Hd' d Hd) as (I & _). assert (J : In (coordinate data d k) (nth d data [])) by (unfold coordinate; apply nth_In; now rewrite Col). split; [now apply (low_least _ (Nc _ I))|now apply (high_greatest _ (Nc _ I))]. }
  assert (Ord : forall e, In e edges -> never_decreases e = true). { intros e He. apply (In_nth _ _ []) in He as (d & Hd & <-). rewrite Le in Hd. rewrite Ne by assumption. destruct (Hd' d Hd) as (_ & W & B). now apply samples_ordered. }
  set (key := fun d i => nth i (nth d edges []) 0 + (nth (S i) (nth d edges []) 0 - nth i (nth d edges []) 0) * (1 # 2)).
  assert (Mean : forall d i k, (d < length data)%nat -> (i < length (nth d edges []) - 1)%nat -> (k < length weight)%nat -> (in_edges (nth d edges []) i (coordinate data d k) = true <-> around (nth d sample_width 0) (key d i) (coordinate data d k))).
  { intros d i k Hd Hi Hk. unfold key. rewrite Ne in * by assumption. destruct (Hd' d Hd) as (_ & W & B). destruct (Hx d k Hd Hk). now apply samples_around. }
  assert (Has : forall k, (k < length weight)%nat -> has_cell data edges k). { intros k Hk. apply (has_cell_iff data edges weight Le Col Ord). intros d Hd. rewrite Ne by assumption. destruct (Hd' d Hd) as (_ & W & B). destruct (Hx d k Hd Hk). now apply samples_covered. }
  set (center := fun cell => map2 (fun e i => nth i e 0 + (nth (S i) e 0 - nth i e 0) * (1 # 2)) edges cell).
  assert (Cen : forall j d, (j < length (cells edges))%nat -> (d < length data)%nat -> nth d (center (nth j (cells edges) [])) 0 = key d (nth d (nth j (cells edges) []) 0%nat)). { intros j d Hj Hd. destruct (nth_cell data edges weight key (fun d => around (nth d sample_width 0)) Le Col Ord Mean j Hj) as [L _]. unfold center, key. apply nth_center; congruence. }
  exists (map (entry data edges weight) (cells edges)), (map center (cells edges)), (product (map (fun rg => within_range (fst rg) (snd rg)) (combine rs det_grid))).
  split; [|split; [|split; [|split; [|split]]]].
  - unfold deconvolution_input. rewrite Rs. cbn [rbind]. destruct m; try contradiction; rewrite Es; cbn [rbind]; rewrite (histogram_is data edges weight Le Col Ord); cbn [rbind]; unfold interpolate_signal; rewrite bin_points; reflexivity.
  - now rewrite !map_length.
  - intros j v p Ev Ep. assert (Hj : (j < length (cells edges))%nat) by (rewrite <- (map_length center); apply nth_error_Some; congruence). rewrite nth_error_map, (nth_error_nth' _ [] Hj) in Ev, Ep. injection Ev as <-. injection Ep as <-. apply (light_ext weight (fun k => forall d, (d < length data)%nat -> around (nth d sample_width 0) (key d (nth d (nth j (cells edges) []) 0%nat)) (coordinate data d k))); [intros k Hk; split; intros K d Hd; specialize (K d Hd); rewrite Cen in *; assumption|]. now apply (cells_light data edges weight key (fun d => around (nth d sample_width 0))).
  - intros k Hk. destruct (cells_one data edges weight key (fun d => around (nth d sample_width 0)) Le Col Ord Mean k Hk (Has k Hk)) as (j & Hj & K & U). exists j, (center (nth j (cells edges) [])). split; [now rewrite nth_error_map, (nth_error_nth' _ [] Hj)|]. split; [intros d Hd; rewrite Cen by assumption; auto|]. intros j' p' Ep' K'. assert (Hj' : (j' < length (cells edges))%nat) by (rewrite <- (map_length center); apply nth_error_Some; congruence). rewrite nth_error_map, (nth_error_nth' _ [] Hj') in Ep'. injection Ep' as <-. apply U; [assumption|]. intros d Hd. specialize (K' d Hd). now rewrite Cen in K'.
  - apply (light_all weight (has_cell data edges)); [assumption|]. now apply total_light.
  - intros p. rewrite product_in. assert (Nn : forall d, (d < length data)%nat -> nth d (map (fun rg => within_range (fst rg) (snd rg)) (combine rs det_grid)) [] = within_range (lims (nth d data [], nth d sample_width 0)) (nth d det_grid [])).
    { intros d Hd. rewrite (nth_map_in _ _ d ((0, 0), [])) by (rewrite combine_length; lia). rewrite combine_nth by lia. cbn [fst snd]. unfold rs. rewrite (nth_map_in lims _ d ([], 0)) by (rewrite combine_length; lia). rewrite combine_nth by lia. reflexivity. }
    assert (Ln : length (map (fun rg => within_range (fst rg) (snd rg)) (combine rs det_grid)) = length data) by (rewrite map_length, combine_length; lia).
    revert Nn Ln. generalize (map (fun rg => within_range (fst rg) (snd rg)) (combine rs det_grid)) as ax. intros ax Nn Ln.
    rewrite forall2_in, Ln. split; intros [L K]; (split; [assumption|]); intros d Hd; specialize (K d Hd); rewrite Nn in * by assumption; unfold within_range in *; rewrite filter_In, within_close in * by (apply Nc, nth_In; assumption); assumption.
Qed.
(** ---- C83, without interpolation ---- *)
Definition point_edges (s : list Q) : list Q := match s with [] => [] | c :: l => c :: middles s ++ [last s c] end.
Lemma sorted_filter (p : Q -> bool) l : StronglySorted Qlt l -> StronglySorted Qlt (filter p l).
Proof. induction 1 as [|a l S IH F]; [constructor|]. cbn [filter]. destruct (p a); [|assumption]. constructor; [assumption|]. rewrite Forall_forall in *. intros x Hx. apply filter_In in Hx. now apply F. Qed.
Theorem C83_grid griddata sample_width det_grid data weight :
  weight <> [] -> length sample_width = length data -> length det_grid = length data -> (forall c, In c data -> length c = length weight) ->
  (forall g, In g det_grid -> StronglySorted Qlt g) -> (forall d, (d < length data)%nat -> exists g, In g (nth d det_grid []) /\ close_to (nth d data []) (nth d sample_width 0) eps32 g) ->
  exists sel names Hs points,
    deconvolution_input griddata sample_width det_grid nointerpolation data weight = Ok (Hs, points) /\
    length sel = length data /\ length names = length Hs /\ length points = length Hs /\ NoDup names /\
    (forall d, (d < length data)%nat -> StronglySorted Qlt (nth d sel []) /\ forall g, In g (nth d sel []) <-> In g (nth d det_grid []) /\ close_to (nth d data []) (nth d sample_width 0) eps32 g) /\
    (forall n, In n names <-> length n = length data /\ forall d, (d < length data)%nat -> In (nth d n 0) (nth d sel [])) /\
    (forall j v n p, nth_error Hs j = Some v -> nth_error names j = Some n -> nth_error points j = Some p ->
      light_of weight (fun k => forall d, (d < length data)%nat -> takes (nth d sel []) (nth d n 0) (coordinate data d k)) v /\
      forall d s, (d < length data)%nat -> evenly s (nth d sel []) -> exists i, nth_error (nth d sel []) i = Some (nth d n 0) /\ reported (nth d sel []) s i (nth d n 0) (nth d p 0)) /\
    light_of weight (fun k => forall d, (d < length data)%nat -> (exists a, In a (nth d sel []) /\ a <= coordinate data d k) /\ exists b, In b (nth d sel []) /\ coordinate data d k <= b) (sumQ Hs).
Proof.
  intros Nw Lw Lg Col Srt Some'. set (rs := map lims (combine data sample_width)). assert (Nc : forall c, In c data -> c <> []) by (intros c Hc ->; apply Nw; apply length_zero_iff_nil; symmetry; exact (Col [] Hc)).
  assert (Rs : ranges data sample_width = Ok rs). { apply rmap_map_ok. intros [c w] H. apply in_combine_l in H. specialize (Nc c H). destruct c; [contradiction|reflexivity]. }
  assert (Lrs : length rs = length data) by (unfold rs; rewrite map_length, combine_length; lia).
  set (sel := map (fun rg => within_range (fst rg) (snd rg)) (combine rs det_grid)). assert (Ls : length sel = length data) by (unfold sel; rewrite map_length, combine_length; lia).
  assert (Ns : forall d, (d < length data)%nat -> nth d sel [] = within_range (lims (nth d data [], nth d sample_width 0)) (nth d det_grid [])).
  { intros d Hd. unfold sel. rewrite (nth_map_in _ _ d ((0, 0), [])) by (rewrite combine_length; lia). rewrite combine_nth by lia. cbn [fst snd]. unfold rs. rewrite (nth_map_in lims _ d ([], 0)) by (rewrite combine_length; lia). rewrite combine_nth by lia. reflexivity. }
  assert (Sel : forall d, (d < length data)%nat -> StronglySorted Qlt (nth d sel []) /\ forall g, In g (nth d sel []) <-> In g (nth d det_grid []) /\ close_to (nth d data []) (nth d sample_width 0) eps32 g).
  { intros d Hd. rewrite Ns by assumption. unfold within_range. split; [apply sorted_filter, Srt, nth_In; lia|]. intros g. rewrite filter_In, within_close by (apply Nc, nth_In; assumption). tauto. }
  assert (Ne0 : forall d, (d < length data)%nat -> exists c l, nth d sel [] = c :: l). { intros d Hd. destruct (Some' d Hd) as (g & G). apply (Sel d Hd) in G. destruct (nth d sel []) as [|c l]; [destruct G|eauto]. }
  set (edges := map point_edges sel). assert (Le : length edges = length data) by (unfold edges; now rewrite map_length).
  assert (Es : rmap (fun rg => binedges_from_bincenters (within_range (fst rg) (snd rg)) None) (combine rs det_grid) = Ok edges).
  { unfold edges, sel. rewrite map_map. apply rmap_map_ok. intros rg H. apply (In_nth _ _ ((0, 0), [])) in H as (d & Hd & E). rewrite combine_length in Hd. assert (Hd2 : (d < length data)%nat) by lia. assert (E2 : within_range (fst rg) (snd rg) = nth d sel []) by (unfold sel; rewrite (nth_map_in _ _ d ((0, 0), [])) by (rewrite combine_length; lia); now rewrite E). rewrite E2. destruct (Sel d Hd2) as [S _]. destruct (Ne0 d Hd2) as (c & l & Ec). rewrite Ec in *. unfold binedges_from_bincenters. rewrite (increasing_ok _ S). reflexivity. }
  assert (Ne : forall d, (d < length data)%nat -> nth d edges [] = point_edges (nth d sel [])) by (intros d Hd; unfold edges; apply (nth_map_in point_edges); lia).
  assert (Len : forall d, (d < length data)%nat -> length (nth d edges []) = S (length (nth d sel []))). { intros d Hd. rewrite Ne by assumption. destruct (Ne0 d Hd) as (c & l & ->). apply points_length. }
  assert (Ord : forall e, In e edges -> never_decreases e = true). { intros e He. apply (In_nth _ _ []) in He as (d & Hd & <-). rewrite Le in Hd. rewrite Ne by assumption. destruct (Sel d Hd) as [S _]. destruct (Ne0 d Hd) as (c & l & Ec). rewrite Ec in *. now apply points_ordered. }
  set (key := fun d i => nth i (nth d sel []) 0). set (R := fun d => takes (nth d sel [])).
  assert (Mean : forall d i k, (d < length data)%nat -> (i < length (nth d edges []) - 1)%nat -> (k < length weight)%nat -> (in_edges (nth d edges []) i (coordinate data d k) = true <-> R d (key d i) (coordinate data d k))).
  { intros d i k Hd Hi Hk. unfold key, R. rewrite Len in Hi by assumption. rewrite Ne by assumption. destruct (Sel d Hd) as [S _]. destruct (Ne0 d Hd) as (c & l & Ec). rewrite Ec in *. apply points_takes; [assumption|lia]. }
  set (name := fun cell => map2 (fun (s : list Q) (i : nat) => nth i s 0) sel cell). set (center := fun cell => map2 (fun e i => nth i e 0 + (nth (S i) e 0 - nth i e 0) * (1 # 2)) edges cell).
  assert (IsC : forall cell, In cell (cells edges) <-> is_cell data edges cell) by (intros; now apply (in_cells data edges weight)).
  assert (Nm : forall cell d, is_cell data edges cell -> (d < length data)%nat -> nth d (name cell) 0 = key d (nth d cell 0%nat)). { intros cell d [L _] Hd. unfold name, key. apply (WfmProps.nth_map2 (fun (s : list Q) (i : nat) => nth i s 0) sel cell d [] 0%nat 0); lia. }
  assert (Prod : product sel = map name (cells edges)).
  { unfold name, cells, edges. rewrite map_map. assert (Ax : map (fun e => seq 0 (length (point_edges e) - 1)) sel = map (fun s => seq 0 (length s)) sel). { apply map_ext_in. intros s Hs. apply (In_nth _ _ []) in Hs as (d & Hd & <-). rewrite Ls in Hd. rewrite <- Ne by assumption. rewrite Len by assumption. f_equal. lia. } rewrite Ax, <- (product_map (fun s i => nth i s 0) (fun s => seq 0 (length s))). f_equal. rewrite <- (map_id sel) at 1. apply map_ext. intros s. clear. apply (nth_ext _ _ 0 0); [now rewrite map_length, seq_length|]. intros n Hn. rewrite (nth_map_in _ _ n 0%nat) by now rewrite seq_length. now rewrite seq_nth. }
  exists sel, (map name (cells edges)), (map (entry data edges weight) (cells edges)), (map center (cells edges)).
  split; [|split; [|split; [|split; [|split; [|split; [|split; [|split]]]]]]].
  - unfold deconvolution_input. rewrite Rs. cbn [rbind]. rewrite Es. cbn [rbind]. rewrite (histogram_is data edges weight Le Col Ord). cbn [rbind]. rewrite bin_points. reflexivity.
  - assumption.
  - now rewrite !map_length.
  - now rewrite !map_length.
  - rewrite <- Prod. apply product_nodup. apply Forall_forall. intros s Hs. apply (In_nth _ _ []) in Hs as (d & Hd & <-). rewrite Ls in Hd. destruct (Sel d Hd) as [S _]. revert S. clear. induction 1 as [|a l S IH F]; constructor; [|assumption]. intros Ha. rewrite Forall_forall in F. specialize (F a Ha). lra.
  - assumption.
  - intros n. rewrite <- Prod, product_in, forall2_in, Ls. reflexivity.
  - intros j v n p Ev En Ep. assert (Hj : (j < length (cells edges))%nat) by (rewrite <- (map_length center); apply nth_error_Some; congruence). rewrite nth_error_map, (nth_error_nth' _ [] Hj) in Ev, En, Ep. injection Ev as <-. injection En as <-. injection Ep as <-. assert (Cell : is_cell data edges (nth j (cells edges) [])) by (apply IsC; now apply nth_In). split.
    + apply (light_ext weight (fun k => forall d, (d < length data)%nat -> R d (key d (nth d (nth j (cells edges) []) 0%nat)) (coordinate data d k))); [intros k Hk; split; intros K d Hd; specialize (K d Hd); unfold R in *; rewrite Nm in * by assumption; assumption|]. now apply (cells_light data edges weight key R).
    + intros d s Hd Ev. rewrite Nm by assumption. destruct Cell as [L Hc]. specialize (Hc d Hd). rewrite Len in Hc by assumption. exists (nth d (nth j (cells edges) []) 0%nat). split; [unfold key; apply nth_error_nth'; lia|]. unfold center. rewrite nth_center by lia. unfold key. rewrite Ne by assumption. destruct (Sel d Hd) as [S _]. destruct (Ne0 d Hd) as (c & l & Ec). rewrite Ec in *. apply points_reported; [assumption|assumption|]. lia.
  - apply (light_ext weight (has_cell data edges)); [|now apply total_light]. intros k Hk. rewrite (has_cell_iff data edges weight Le Col Ord). split; intros K d Hd; specialize (K d Hd); destruct (Sel d Hd) as [S _]; destruct (Ne0 d Hd) as (c & l & Ec).
    + destruct K as (i & I1 & I2). rewrite Len in I1 by assumption. rewrite Ne in I2 by assumption. rewrite Ec in *. apply points_takes in I2; [|assumption|lia]. destruct I2 as (A & B & _). split; assumption.
    + rewrite Len, Ne by assumption. rewrite Ec in *. destruct K as [K1 K2]. destruct (points_covered c l S (coordinate data d k) K1 K2) as (i & I1 & I2). exists i. split; [lia|assumption].
Qed.
(** ---- the nearest point ---- *)
Lemma argmin_spec l : l <> [] -> (argmin l < length l)%nat /\ (forall j, (j < length l)%nat -> nth (argmin l) l 0 <= nth j l 0) /\ forall j, (j < argmin l)%nat -> nth (argmin l) l 0 < nth j l 0.
Proof.
  induction l as [|x l IH]; intros N; [contradiction|]. destruct l as [|y l]; [cbn; repeat split; [lia|intros j Hj; destruct j; [lra|lia]|intros; lia]|]. destruct IH as (I1 & I2 & I3); [discriminate|]. set (l' := y :: l) in *.
  change (argmin (x :: l')) with (if Qle_bool x (nth (argmin l') l' 0) then 0%nat else S (argmin l')). destruct (Qle_bool x (nth (argmin l') l' 0)) eqn:E.
  - apply Qleb_le in E. cbn [nth length]. repeat split; [lia| |intros; lia]. intros [|j] Hj; [lra|]. specialize (I2 j ltac:(lia)). lra.
  - apply Qleb_gt in E. cbn [nth length]. split; [lia|]. split; [intros [|j] Hj; [lra|apply I2; lia]|]. intros [|j] Hj; [assumption|apply I3; lia].
Qed.
Theorem C83_nearest array value : (find_nearest array value = Err ValueError <-> array = []) /\
  (array <> [] -> exists i v, find_nearest array value = Ok v /\ nth_error array i = Some v /\ (forall a, In a array -> Qabs.Qabs (v - value) <= Qabs.Qabs (a - value)) /\
    forall j a, (j < i)%nat -> nth_error array j = Some a -> Qabs.Qabs (v - value) < Qabs.Qabs (a - value)).
Proof.
  split; [destruct array; cbn; split; intros; congruence|]. intros N. set (ds := map (fun a => Qabs.Qabs (a - value)) array). destruct (argmin_spec ds) as (I1 & I2 & I3); [now destruct array|]. unfold ds in I1. rewrite map_length in I1. fold ds in I1. assert (D : forall j, (j < length array)%nat -> nth j ds 0 = Qabs.Qabs (nth j array 0 - value)) by (intros j Hj; unfold ds; now rewrite (nth_map_in _ _ j 0)).
  exists (argmin ds), (nth (argmin ds) array 0). split; [destruct array; [contradiction|reflexivity]|]. split; [now apply nth_error_nth'|]. assert (Ld : length ds = length array) by apply map_length. rewrite <- D by assumption. split.
  - intros a Ha. apply (In_nth _ _ 0) in Ha as (j & Hj & <-). rewrite <- D by assumption. apply I2. lia.
  - intros j a Hj Ea. assert (Hl : (j < length array)%nat) by lia. apply (nth_error_nth _ _ 0) in Ea. subst a. rewrite <- D by assumption. now apply I3.
Qed.
(** ---- what does not hold ---- *)
(** without interpolation the grid of the city starts half a bin inside the outermost sensors: their light is in no entry of the image *)
Theorem C83_lost_refuted griddata : exists positions bs hit Hs points, In hit positions /\
  deconvolution_input griddata [bs] [grid_of positions bs] nointerpolation [[hit]] [100] = Ok (Hs, points) /\ sumQ Hs == 0.
Proof. exists [0; 10; 20], 10, 0. eexists. eexists. split; [now left|]. split; [vm_compute; reflexivity|reflexivity]. Qed.
(** and the light of the first and of the last points of the grid is reported a quarter of the spacing away from them *)
Theorem C83_border_refuted griddata : exists grid Hs points, evenly 10 grid /\ deconvolution_input griddata [10] [grid] nointerpolation [[5; 15; 25]] [1; 2; 3] = Ok (Hs, points) /\
  length points = length grid /\ nth_error grid 0 = Some 5 /\ (exists p, nth_error points 0 = Some [p] /\ p == 15 # 2) /\ nth_error grid 2 = Some 25 /\ (exists p, nth_error points 2 = Some [p] /\ p == 45 # 2).
Proof.
  exists [5; 15; 25]. eexists. eexists. split; [|split; [vm_compute; reflexivity|split; [reflexivity|split; [reflexivity|split; [eexists; split; reflexivity|split; [reflexivity|eexists; split; reflexivity]]]]]]. intros [|[|[|i]]] a b E1 E2; cbn in E1, E2; try discriminate; injection E1 as <-; injection E2 as <-; reflexivity.
Qed.
(** ---- examples ---- *)
Example C83_binned_case : linear <> nointerpolation /\ [1; 2; 4] <> [] /\ length [10; 10] = length [[0; 10; 3]; [20; 20; 27]] /\ (forall c, In c [[0; 10; 3]; [20; 20; 27]] -> length c = length [1; 2; 4]) /\ forall w, In w [10; 10] -> 0 < w.
Proof. split; [discriminate|]. split; [discriminate|]. split; [reflexivity|]. split; [intros c [<-|[<-|[]]]; reflexivity|intros w [<-|[<-|[]]]; reflexivity]. Qed.
Example C83_binned_value : let g := fun (_ : inter_method) ps (Hs : list Q) (p : list Q) => match find (fun pv => forallb (fun ab => Qeqb (fst ab) (snd ab)) (combine (fst pv) p)) (combine ps Hs) with Some pv => Some (snd pv) | None => None end in
  deconvolution_input g [10] [[0; 4; 10; 14]] nearest [[0; 10; 3]] [1; 2; 4] = Ok ([5; 0; 2; 0], [[0]; [4]; [10]; [14]]).
Proof. vm_compute. reflexivity. Qed.
Example C83_grid_case : let grid := grid_of [0; 10; 20; 30] 10 in StronglySorted Qlt grid /\ exists g, In g grid /\ close_to [5; 13; 24] 10 eps32 g.
Proof.
  vm_compute grid_of. split; [repeat constructor|]. exists (10 # 2). split; [now left|]. exists 5, 24. unfold least, greatest. repeat split; try (cbn; tauto); try (vm_compute; congruence); intros x Hx; cbn in Hx; destruct Hx as [<-|[<-|[<-|[]]]]; vm_compute; congruence.
Qed.
Example C83_nearest_case : find_nearest [1; 4; 6] 5 = Ok 4. Proof. reflexivity. Qed.
Print Assumptions C83_binned. Print Assumptions C83_grid. Print Assumptions C83_nearest. Print Assumptions C83_lost_refuted. Print Assumptions C83_border_refuted.
