(** C40: the krypton map; C63: its time slices *)
From Verif Require Import Base Arrays PeaksModel PeaksProofs BuffersProofs WfmModel WfmProps PmapioProofs DbModel DbProps DbThr CorrModel CorrSpec CorrProps KmapModel KmapSpec.
Local Open Scope Q_scope.

(** ---- orders ---- *)
Lemma before_irrefl p : ~ before p p. Proof. destruct p as [[k i] j]. cbn. lia. Qed.
Lemma before_asym p q : before p q -> ~ before q p. Proof. destruct p as [[k i] j], q as [[k' i'] j']. cbn. lia. Qed.
Lemma key_le_iff p q : key_le p q = true <-> before p q \/ p = q.
Proof.
  destruct p as [[k i] j], q as [[k' i'] j']. unfold key_le, before. repeat rewrite ?orb_true_iff, ?andb_true_iff, ?Nat.ltb_lt, ?Nat.eqb_eq, ?Nat.leb_le. split; [|intros [H|H]; [lia|injection H as -> -> ->; lia]].
  intros H. destruct (Nat.eq_dec k k') as [->|]; [|left; lia]. destruct (Nat.eq_dec i i') as [->|]; [|left; lia]. destruct (Nat.eq_dec j j') as [->|]; [now right|left; lia].
Qed.
Lemma before_trans p q r : before p q -> before q r -> before p r.
Proof. destruct p as [[k i] j], q as [[k' i'] j'], r as [[k'' i''] j'']. cbn. lia. Qed.
Lemma before_total p q : p = q \/ before p q \/ before q p.
Proof. destruct p as [[k i] j], q as [[k' i'] j']. cbn. destruct (Nat.eq_dec k k') as [->|]; [|lia]. destruct (Nat.eq_dec i i') as [->|]; [|lia]. destruct (Nat.eq_dec j j') as [->|]; [now left|lia]. Qed.
Lemma key_le_total p q : key_le p q = true \/ key_le q p = true.
Proof. rewrite !key_le_iff. destruct (before_total p q) as [->|[H|H]]; auto. Qed.
Lemma key_le_trans p q r : key_le p q = true -> key_le q r = true -> key_le p r = true.
Proof. rewrite !key_le_iff. intros [H| ->] [K| ->]; auto. left. eapply before_trans; eassumption. Qed.
Lemma lex_sorted {A B} (R : A -> A -> Prop) (S : B -> B -> Prop) l1 l2 : StronglySorted R l1 -> StronglySorted S l2 ->
  StronglySorted (fun p q => R (fst p) (fst q) \/ (fst p = fst q /\ S (snd p) (snd q))) (list_prod l1 l2).
Proof.
  intros H1 H2. induction H1 as [|a l1 H1 IH F]; cbn; [constructor|]. apply sorted_app; [|assumption|].
  - apply (sorted_map S); [assumption|]. intros x y H. right. now cbn.
  - intros p q Hp Hq. apply in_map_iff in Hp. destruct Hp as (b & <- & Hb). destruct q as [x y]. apply in_prod_iff in Hq. left. cbn. rewrite Forall_forall in F. now apply F.
Qed.
Lemma sorted_impl {A} (R S : A -> A -> Prop) l : (forall a b, R a b -> S a b) -> StronglySorted R l -> StronglySorted S l.
Proof. intros H. induction 1 as [|a l T IH F]; constructor; [assumption|]. eapply Forall_impl; [|exact F]. intros; now apply H. Qed.
Lemma seq_lt_sorted a n : StronglySorted lt (seq a n).
Proof. revert a. induction n as [|n IH]; intros a; cbn; constructor; [apply IH|]. apply Forall_forall. intros x Hx. apply in_seq in Hx. lia. Qed.
Lemma triples_sorted a l b m c n : StronglySorted before (list_prod (list_prod (seq a l) (seq b m)) (seq c n)).
Proof.
  eapply sorted_impl; [|apply lex_sorted; [apply lex_sorted; apply seq_lt_sorted|apply seq_lt_sorted]]. intros [[k i] j] [[k' i'] j']. cbn. intros [[H|[-> H]]|[H1 H2]]; [lia|lia|]. injection H1 as -> ->. lia.
Qed.
Lemma sorted_split {A} (R : A -> A -> Prop) pre p post : StronglySorted R (pre ++ p :: post) -> (forall q, In q pre -> R q p) /\ (forall q, In q post -> R p q).
Proof.
  induction pre as [|x pre IH]; cbn; intros H; apply StronglySorted_inv in H; destruct H as [H1 H2].
  - split; [intros q []|]. now apply Forall_forall.
  - destruct (IH H1) as [I1 I2]. split; [|assumption]. intros q [<-|Hq]; [|now apply I1]. rewrite Forall_forall in H2. apply H2, in_or_app. right. now left.
Qed.
Lemma sorted_before_nodup l : StronglySorted before l -> NoDup l.
Proof. induction 1 as [|a l S IH F]; constructor; [|assumption]. intros K. rewrite Forall_forall in F. apply (before_irrefl a). now apply F. Qed.

(** ---- the flattened array ---- *)
Definition fits_in (a b c : nat) (p : key) : Prop := let '(k, i, j) := p in (k < a /\ i < b /\ j < c)%nat.
Lemma index_lt a b c p : fits_in a b c p -> (index b c p < a * b * c)%nat.
Proof. destruct p as [[k i] j]. cbn. intros (H1 & H2 & H3). assert (k * b + i < a * b)%nat by nia. nia. Qed.
Lemma pair_inj c x y j j' : (j < c -> j' < c -> x * c + j = y * c + j' -> x = y /\ j = j')%nat.
Proof. intros H1 H2 E. assert (x = y) by nia. split; [assumption|]. subst. lia. Qed.
Lemma index_inj a b c p q : fits_in a b c p -> fits_in a b c q -> index b c p = index b c q -> p = q.
Proof.
  destruct p as [[k i] j], q as [[k' i'] j']. cbn. intros (H1 & H2 & H3) (K1 & K2 & K3) E. apply pair_inj in E; [|assumption|assumption]. destruct E as [E ->]. apply pair_inj in E; [|assumption|assumption]. destruct E as [-> ->]. reflexivity.
Qed.
Lemma in_scan a b c p : In p (scan a b c) <-> let '(k, i, j) := p in (k < a /\ 0 < i /\ i + 1 < b /\ 0 < j /\ j + 1 < c)%nat.
Proof. destruct p as [[k i] j]. unfold scan. rewrite !in_prod_iff, !in_seq. lia. Qed.
Lemma scan_fits a b c p : In p (scan a b c) -> fits_in a b c p.
Proof. rewrite in_scan. destruct p as [[k i] j]. cbn. lia. Qed.
Lemma scan_sorted a b c : StronglySorted before (scan a b c). Proof. apply triples_sorted. Qed.
Lemma length_step b c m p : length (regularize_step b c m p) = length m.
Proof. unfold regularize_step. destruct (at_bin b c m p); [reflexivity|]. destruct (_ <? _)%nat; [reflexivity|apply length_upd]. Qed.
Lemma length_fold b c l m : length (fold_left (regularize_step b c) l m) = length m.
Proof. revert m. induction l as [|p l IH]; intros m; cbn [fold_left]; [reflexivity|]. now rewrite IH, length_step. Qed.
Lemma step_other a b c m p q : length m = (a * b * c)%nat -> fits_in a b c p -> fits_in a b c q -> p <> q -> at_bin b c (regularize_step b c m p) q = at_bin b c m q.
Proof.
  intros L Hp Hq N. unfold regularize_step. destruct (at_bin b c m p); [reflexivity|]. destruct (_ <? _)%nat; [reflexivity|]. unfold at_bin. rewrite nth_upd by (rewrite L; now apply index_lt). destruct (Nat.eqb_spec (index b c q) (index b c p)) as [E|]; [|reflexivity]. exfalso. apply N. symmetry. now apply (index_inj a b c).
Qed.
Lemma fold_other a b c l m q : length m = (a * b * c)%nat -> (forall p, In p l -> fits_in a b c p) -> fits_in a b c q -> ~ In q l -> at_bin b c (fold_left (regularize_step b c) l m) q = at_bin b c m q.
Proof.
  revert m. induction l as [|p l IH]; intros m L H Hq N; cbn [fold_left]; [reflexivity|]. rewrite IH; [|now rewrite length_step|intros; apply H; now right|assumption|intros K; apply N; now right]. apply (step_other a); try assumption; [apply H; now left|intros ->; apply N; now left].
Qed.
Lemma nans_missing l : nans l = missing l.
Proof. unfold nans, missing. induction l as [|[q|] l IH]; cbn [filter numbers length]; [reflexivity|assumption|]. rewrite IH. assert (K : (length (numbers l) <= length l)%nat) by (clear; induction l as [|[q|] l IH]; cbn; lia). lia. Qed.
(** The result of the loops is the one described. *)
Theorem C40_regularize a b c m m' : regularize a b c m = Ok m' -> length m' = length m /\ regularized a b c (at_bin b c m) (at_bin b c m').
Proof.
  unfold regularize. destruct (Nat.eqb_spec (length m) (a * b * c)) as [L|]; [|discriminate]. injection 1 as <-. split; [apply length_fold|]. intros k i j Hk Hi Hj. set (p := (k, i, j)). assert (Fp : fits_in a b c p) by (cbn; auto).
  set (final := fold_left (regularize_step b c) (scan a b c) m). split; [|split].
  - intros N. unfold final. destruct (in_dec key_dec p (scan a b c)) as [I|I]; [|now apply (fold_other a); [|apply scan_fits| |]].
    apply in_split in I. destruct I as (pre & post & E). pose proof (scan_sorted a b c) as S. rewrite E in S. pose proof (sorted_split _ _ _ _ S) as [S1 S2]. assert (Fs : forall x, In x (pre ++ p :: post) -> fits_in a b c x) by (rewrite <- E; apply scan_fits). rewrite E, fold_left_app. cbn [fold_left].
    assert (N1 : ~ In p pre) by (intros K; apply (before_irrefl p); now apply S1). assert (N2 : ~ In p post) by (intros K; apply (before_irrefl p); now apply S2).
    assert (E1 : at_bin b c (fold_left (regularize_step b c) pre m) p = at_bin b c m p) by (apply (fold_other a); try assumption; intros; apply Fs, in_or_app; now left).
    rewrite (fold_other a); [|now rewrite length_step, length_fold|intros; apply Fs, in_or_app; right; now right|assumption|assumption]. set (m1 := fold_left (regularize_step b c) pre m) in *. unfold regularize_step. destruct (at_bin b c m1 p) eqn:E2; congruence.
  - intros N. unfold final. apply (fold_other a); [assumption|apply scan_fits|assumption|]. intros K. apply in_scan in K. cbn in K. apply N. cbn. lia.
  - intros N I. assert (Ip : In p (scan a b c)) by (apply in_scan; cbn; cbn in I; lia). apply in_split in Ip. destruct Ip as (pre & post & E). pose proof (scan_sorted a b c) as S. rewrite E in S. pose proof (sorted_split _ _ _ _ S) as [S1 S2]. assert (Fs : forall x, In x (pre ++ p :: post) -> fits_in a b c x) by (rewrite <- E; apply scan_fits).
    set (m1 := fold_left (regularize_step b c) pre m). assert (L1 : length m1 = (a * b * c)%nat) by (unfold m1; now rewrite length_fold).
    assert (N1 : ~ In p pre) by (intros K; apply (before_irrefl p); now apply S1). assert (N2 : ~ In p post) by (intros K; apply (before_irrefl p); now apply S2).
    assert (F : final = fold_left (regularize_step b c) post (regularize_step b c m1 p)) by (unfold final, m1; now rewrite E, fold_left_app).
    assert (Fpre : forall x, In x pre -> fits_in a b c x) by (intros; apply Fs, in_or_app; now left). assert (Fpost : forall x, In x post -> fits_in a b c x) by (intros; apply Fs, in_or_app; right; now right).
    assert (Ep : at_bin b c m1 p = None) by (unfold m1; rewrite (fold_other a); assumption). exists (map (at_bin b c m1) (neighbours p)). split.
    + assert (Nb : forall q, In q (eight p) -> fits_in a b c q /\ (before q p \/ before p q)) by (intros q; cbn in I |- *; intros Hq; repeat (destruct Hq as [<-|Hq]; [cbn; lia|]); destruct Hq).
      change (eight p) with (neighbours p) in *. revert Nb. generalize (neighbours p). induction l as [|q l IHl]; intros Nb; cbn [map]; constructor; [|apply IHl; intros; apply Nb; now right]. destruct (Nb q (or_introl eq_refl)) as [Fq [B|B]]; [left|right]; (split; [assumption|]).
      * assert (Nq : ~ In q post) by (intros K; apply (before_asym _ _ B); now apply S2). rewrite F. rewrite (fold_other a); [|now rewrite length_step|assumption|assumption|assumption]. symmetry. apply (step_other a); try assumption. intros ->. now apply (before_irrefl q).
      * unfold m1. apply (fold_other a); try assumption. intros K. apply (before_asym _ _ B). now apply S1.
    + assert (Ef : at_bin b c final p = at_bin b c (regularize_step b c m1 p) p) by (rewrite F; apply (fold_other a); try assumption; now rewrite length_step). rewrite Ef. unfold regularize_step. rewrite Ep. rewrite nans_missing. set (vals := map (at_bin b c m1) (neighbours p)). split.
      * intros H. destruct (Nat.ltb_spec 3 (missing vals)); [lia|]. unfold at_bin at 1. rewrite nth_upd, Nat.eqb_refl by (rewrite L1; now apply index_lt).
        pose proof (nanmean_is vals) as M. destruct (nanmean vals) as [q|]; [exists q; auto|]. exfalso. change (numbers vals = []) in M. unfold missing in H. rewrite M in H. assert (Lv : length vals = 8%nat) by reflexivity. rewrite Lv in H. cbn in H. lia.
      * intros H. destruct (Nat.ltb_spec 3 (missing vals)); [assumption|lia].
Qed.
Print Assumptions C40_regularize.

(** the missing values of a column of values, when some become known *)
Lemma numbers_mono (P : key -> val -> Prop) (orig : key -> val) l vals : Forall2 P l vals -> (forall q v, In q l -> P q v -> v = None -> orig q = None) -> (missing vals <= missing (map orig l))%nat.
Proof.
  intros F H. unfold missing. assert (K : (length vals - length (numbers vals) <= length l - length (numbers (map orig l)))%nat /\ (length (numbers vals) <= length vals)%nat /\ (length (numbers (map orig l)) <= length l)%nat); [|rewrite map_length; lia].
  induction F as [|q v l vals Pq F IH]; [cbn; lia|]. destruct IH as (I1 & I2 & I3); [intros; eapply H; eauto; now right|]. specialize (H q v (or_introl eq_refl) Pq). destruct v as [w|]; cbn [numbers map length].
  - destruct (orig q); cbn [length]; lia.
  - rewrite H by reflexivity. lia.
Qed.
(** A missing value inside a slice with at most three missing neighbours gets a value. *)
Theorem C40_filled a b c orig final k i j : regularized a b c orig final -> (k < a -> i < b -> j < c -> interior b c (k, i, j) -> missing (map orig (eight (k, i, j))) <= 3 -> final (k, i, j) <> None)%nat.
Proof.
  intros R Hk Hi Hj I M. destruct (R k i j Hk Hi Hj) as (R1 & _ & R3). destruct (orig (k, i, j)) as [q|] eqn:E; [rewrite R1; congruence|]. destruct (R3 eq_refl I) as (vals & V1 & V2 & _).
  destruct V2 as (m & -> & _); [|discriminate]. etransitivity; [|exact M]. eapply numbers_mono; [exact V1|]. cbn beta. intros q v Hq [[B ->]|[B ->]] Hv; [|assumption].
  destruct (orig q) as [x|] eqn:Eq; [|reflexivity]. exfalso. destruct q as [[k' i'] j']. assert (Fq : (k' < a /\ i' < b /\ j' < c)%nat) by (cbn in I, Hq; repeat (destruct Hq as [Hq|Hq]; [injection Hq as <- <- <-; lia|]); destruct Hq). destruct (R k' i' j') as (Q1 & _); try tauto. rewrite Q1 in Hv; congruence.
Qed.
Print Assumptions C40_filled.
Lemma mean_bounds l m lo hi : is_mean l m -> (forall x, In x l -> lo <= x <= hi) -> lo <= m <= hi.
Proof.
  intros [N M] H. assert (P : 0 < qn (length l)) by (apply qn_pos; destruct l; [contradiction|cbn; lia]).
  assert (A : lo * qn (length l) <= sumQ l). { rewrite Qmult_comm. unfold qn. rewrite <- (sumF_const lo l), sumQ_sumF. apply sumF_le. intros x Hx. now apply H. }
  assert (B : sumQ l <= hi * qn (length l)). { rewrite (Qmult_comm hi). unfold qn. rewrite <- (sumF_const hi l), sumQ_sumF. apply sumF_le. intros x Hx. now apply H. }
  rewrite <- M in A, B. split; [apply Qmult_le_r in A; assumption|apply Qmult_le_r in B; assumption].
Qed.
Lemma before_wf : well_founded before.
Proof.
  assert (H : forall k i j, Acc before (k, i, j)).
  { intros k. induction k as [k IHk] using (well_founded_induction lt_wf). intros i. induction i as [i IHi] using (well_founded_induction lt_wf). intros j. induction j as [j IHj] using (well_founded_induction lt_wf). constructor. intros [[k' i'] j'] B. cbn in B. destruct B as [B|[-> [B|[-> B]]]]; [now apply IHk|now apply IHi|now apply IHj]. }
  intros [[k i] j]. apply H.
Qed.
(** The values filled in stay between the bounds of the measured ones. *)
Theorem C40_bounds a b c orig final lo hi : regularized a b c orig final -> (forall k i j q, (k < a)%nat -> (i < b)%nat -> (j < c)%nat -> orig (k, i, j) = Some q -> lo <= q <= hi) ->
  forall k i j q, (k < a)%nat -> (i < b)%nat -> (j < c)%nat -> final (k, i, j) = Some q -> lo <= q <= hi.
Proof.
  intros R H k i j. remember (k, i, j) as p. revert k i j Heqp. induction p as [p IH] using (well_founded_induction before_wf). intros k i j -> q Hk Hi Hj E. destruct (R k i j Hk Hi Hj) as (R1 & R2 & R3).
  destruct (orig (k, i, j)) as [x|] eqn:Eo; [rewrite R1 in E by discriminate; eapply (H k i j); try eassumption; congruence|].
  assert (D : interior b c (k, i, j) \/ ~ interior b c (k, i, j)) by (cbn; lia). destruct D as [I|I]; [|rewrite R2 in E by assumption; discriminate]. destruct (R3 eq_refl I) as (vals & V1 & V2 & V3).
  destruct (le_lt_dec (missing vals) 3) as [M|M]; [|rewrite (V3 M) in E; discriminate]. destruct (V2 M) as (m & Em & Hm). assert (Q : q = m) by congruence. subst m. eapply mean_bounds; [exact Hm|]. intros x Hx. apply in_numbers in Hx.
  assert (K : exists p', In p' (eight (k, i, j)) /\ ((before p' (k, i, j) /\ Some x = final p') \/ (before (k, i, j) p' /\ Some x = orig p'))).
  { clear - V1 Hx. induction V1 as [|p' v l vals P F IH]; [destruct Hx|]. destruct Hx as [->|Hx]; [exists p'; split; [now left|assumption]|]. destruct (IH Hx) as (p'' & A & B). exists p''. split; [now right|assumption]. }
  destruct K as ([[k' i'] j'] & K1 & K2). assert (F : (k' < a /\ i' < b /\ j' < c)%nat) by (cbn in I, K1; repeat (destruct K1 as [K1|K1]; [injection K1 as <- <- <-; lia|]); destruct K1). destruct F as (F1 & F2 & F3).
  destruct K2 as [[B Ex]|[B Ex]]; [eapply (IH (k', i', j') B k' i' j' eq_refl); try eassumption; congruence|eapply (H k' i' j'); try eassumption; congruence].
Qed.
Print Assumptions C40_bounds.
Example C40_regularize_ex : regularize 1 3 3 [Some 1; Some 1; None; Some 1; None; Some 3; None; Some 3; None] = Ok [Some 1; Some 1; None; Some 1; Some (meanQ [1; 1; 1; 3; 3]); Some 3; None; Some 3; None].
Proof. vm_compute. reflexivity. Qed.
