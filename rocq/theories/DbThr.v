(** C50: the thresholds of the noise *)
From Verif Require Import Base Arrays PeaksModel PmapioProofs DbModel DbSpec.
Local Open Scope Q_scope.

Lemma nth_cumsum acc l k : (k < length l)%nat -> nth k (cumsum_from acc l) 0 == acc + cumulative l (S k).
Proof.
  unfold cumulative. revert acc k. induction l as [|x l IH]; intros acc k H; [cbn in H; lia|]. destruct k as [|k]; cbn [cumsum_from nth firstn sumQ]; [lra|]. cbn in H. rewrite IH by lia. cbn [firstn]. destruct l as [|y l]; [cbn in H; lia|]. cbn [sumQ]. lra.
Qed.
Lemma length_cumsum acc l : length (cumsum_from acc l) = length l.
Proof. revert acc. induction l as [|x l IH]; intros acc; cbn; [reflexivity|now rewrite IH]. Qed.
Lemma first_at_least_spec y c : match first_at_least y c with
  | Some k => (k < length y)%nat /\ c <= nth k y 0 /\ forall j, (j < k)%nat -> nth j y 0 < c
  | None => forall j, (j < length y)%nat -> nth j y 0 < c end.
Proof.
  induction y as [|q y IH]; cbn [first_at_least]; [cbn; intros; lia|]. destruct (Qle_bool c q) eqn:E.
  - apply Qle_bool_iff in E. split; [cbn; lia|]. split; [assumption|]. intros; lia.
  - assert (L : q < c) by (apply Qnot_le_lt; intros K; apply Qle_bool_iff in K; congruence). destruct (first_at_least y c) as [k|]; cbn [option_map].
    + destruct IH as (I1 & I2 & I3). split; [cbn; lia|]. split; [assumption|]. intros [|j] H; [assumption|]. apply I3. lia.
    + intros [|j] H; [assumption|]. apply IH. cbn in H. lia.
Qed.
Lemma existsb_nonzero l : existsb (fun q => negb (Qeqb q 0)) l = false <-> Forall (fun q => q == 0) l.
Proof.
  induction l as [|q l IH]; cbn; [split; [constructor|reflexivity]|]. rewrite orb_false_iff, IH. split.
  - intros [H1 H2]. constructor; [|assumption]. destruct (Qeqb_spec q 0); [assumption|discriminate].
  - intros H. inversion H as [|? ? H1 H2]; subst. split; [|assumption]. destruct (Qeqb_spec q 0); [reflexivity|contradiction].
Qed.
Lemma cumulative_S p k : (k < length p)%nat -> cumulative p (S k) == cumulative p k + nth k p 0.
Proof.
  unfold cumulative. revert k. induction p as [|x p IH]; intros k H; [cbn in H; lia|]. destruct k as [|k]; [cbn; lra|]. cbn in H. change (firstn (S (S k)) (x :: p)) with (x :: firstn (S k) p). change (firstn (S k) (x :: p)) with (x :: firstn k p). cbn [sumQ nth]. rewrite IH by lia. lra.
Qed.
Lemma cumsum_zero p : Forall (fun q => q == 0) (np_cumsum p) <-> Forall (fun q => q == 0) p.
Proof.
  unfold np_cumsum. assert (G : forall acc, acc == 0 -> Forall (fun q => q == 0) (cumsum_from acc p) <-> Forall (fun q => q == 0) p); [|apply G; reflexivity].
  induction p as [|x p IH]; intros acc Ha; cbn; [split; constructor|]. split; intros H; inversion H as [|? ? H1 H2]; subst; constructor; try lra; apply (IH (acc + x)); try assumption; lra.
Qed.

(** one sensor *)
Theorem C50_threshold xbins p cut t : length p = length xbins -> (exists q, In q p /\ ~ q == 0) ->
  inverse_cdf xbins (np_cumsum p) cut = Ok (Fin t) <-> is_threshold xbins p cut t.
Proof.
  intros Hl (q & Hq & Hne). unfold inverse_cdf. destruct (existsb (fun q => negb (Qeqb q 0)) (np_cumsum p)) eqn:E.
  2: { exfalso. rewrite existsb_nonzero, cumsum_zero, Forall_forall in E. now apply Hne, E. }
  cbn [negb]. unfold inverse_cdf_index. pose proof (first_at_least_spec (np_cumsum p) cut) as S. unfold np_cumsum in *. rewrite length_cumsum in S.
  assert (N : forall k, (k < length p)%nat -> nth k (cumsum_from 0 p) 0 == cumulative p (Datatypes.S k)) by (intros; rewrite nth_cumsum by assumption; lra).
  split.
  - intros H. destruct (first_at_least (cumsum_from 0 p) cut) as [k|]; [|discriminate]. cbn [rbind] in H. destruct S as (S1 & S2 & S3). destruct (nth_error xbins k) eqn:En; [|discriminate]. injection H as <-. exists k. split; [assumption|]. split; [assumption|]. rewrite <- N by assumption. split; [assumption|]. intros j Hj. rewrite <- N by lia. now apply S3.
  - intros (k & H1 & H2 & H3 & H4). destruct (first_at_least (cumsum_from 0 p) cut) as [k'|].
    + destruct S as (S1 & S2 & S3). cbn [rbind]. assert (k' = k); [|subst; now rewrite H2]. destruct (Nat.lt_trichotomy k k') as [L|[L|L]]; [|now symmetry|].
      * specialize (S3 k L). rewrite N in S3 by assumption. lra.
      * specialize (H4 k' L). rewrite <- N in H4 by assumption. lra.
    + exfalso. specialize (S k H1). rewrite N in S by assumption. lra.
Qed.
Print Assumptions C50_threshold.
(** a sensor without noise has an infinite threshold *)
Theorem C50_no_noise xbins p cut : Forall (fun q => q == 0) p -> inverse_cdf xbins (np_cumsum p) cut = Ok Inf.
Proof. intros H. unfold inverse_cdf. apply cumsum_zero in H. apply existsb_nonzero in H. now rewrite H. Qed.
Print Assumptions C50_no_noise.

Lemma cumulative_all p : cumulative p (length p) == sumQ p.
Proof. unfold cumulative. now rewrite firstn_all. Qed.
Lemma has_first (P : nat -> bool) n : P n = true -> exists k, (k <= n)%nat /\ P k = true /\ forall j, (j < k)%nat -> P j = false.
Proof.
  revert P. induction n as [|n IH]; intros P H; [exists 0%nat; repeat split; [lia|assumption|intros; lia]|]. destruct (P 0%nat) eqn:E; [exists 0%nat; repeat split; [lia|assumption|intros; lia]|].
  destruct (IH (fun k => P (S k)) H) as (k & K1 & K2 & K3). exists (S k). repeat split; [lia|assumption|]. intros [|j] Hj; [assumption|]. apply K3. lia.
Qed.
(** there is a threshold whenever the cut does not exceed the total probability *)
Theorem C50_exists xbins p cut : length p = length xbins -> (exists q, In q p /\ ~ q == 0) -> cut <= sumQ p -> exists t, inverse_cdf xbins (np_cumsum p) cut = Ok (Fin t) /\ is_threshold xbins p cut t.
Proof.
  intros Hl He Hc. assert (Hp : (0 < length p)%nat) by (destruct He as (q & Hq & _); destruct p; [easy|cbn; lia]).
  destruct (has_first (fun k => Qle_bool cut (cumulative p (S k))) (length p - 1)) as (k & K1 & K2 & K3).
  { apply Qle_bool_iff. replace (S (length p - 1)) with (length p) by lia. now rewrite cumulative_all. }
  apply Qle_bool_iff in K2. destruct (nth_error xbins k) as [t|] eqn:En; [|apply nth_error_None in En; lia]. assert (T : is_threshold xbins p cut t).
  { exists k. split; [lia|]. split; [assumption|]. split; [assumption|]. intros j Hj. apply Qnot_le_lt. intros K. apply Qle_bool_iff in K. specialize (K3 j Hj). cbn beta in K3. congruence. }
  exists t. split; [|assumption]. now apply C50_threshold.
Qed.
Print Assumptions C50_exists.

(** at least the fraction [cut] of the noise is at or below the threshold, and less than that below it *)
Theorem C50_fraction xbins p cut t : length p = length xbins -> StronglySorted Qlt xbins -> 0 < cut -> is_threshold xbins p cut t ->
  cut <= probability (fun x => Qle_bool x t) xbins p /\ probability (fun x => Qltb x t) xbins p < cut.
Proof.
  intros Hl HS Hc (k & H1 & H2 & H3 & H4).
  assert (G : forall xs p k t, length p = length xs -> StronglySorted Qlt xs -> nth_error xs k = Some t -> probability (fun x => Qle_bool x t) xs p == cumulative p (S k) /\ probability (fun x => Qltb x t) xs p == cumulative p k).
  { clear. unfold probability, sumF, cumulative. intros xs p k t Hl HS. revert p k Hl. induction HS as [|x xs HS IH F]; intros p k Hl En; [destruct k; discriminate|]. destruct p as [|q p]; [discriminate|]. injection Hl as Hl. cbn [combine map sumQ fst snd]. rewrite Forall_forall in F.
    assert (Z : x = t -> sumQ (map (fun xp => if Qle_bool (fst xp) t then snd xp else 0) (combine xs p)) == 0 /\ sumQ (map (fun xp => if Qltb (fst xp) t then snd xp else 0) (combine xs p)) == 0).
    { intros <-. clear IH HS En Hl. revert p. induction xs as [|y xs IHx]; intros p; [cbn; split; reflexivity|]. destruct p as [|q' p]; [cbn; split; reflexivity|]. cbn [combine map sumQ fst snd]. pose proof (F y (or_introl eq_refl)) as Fy. destruct (IHx (fun z Hz => F z (or_intror Hz)) p) as [Z1 Z2]. rewrite Z1, Z2. destruct (Qle_bool y x) eqn:E; [apply Qle_bool_iff in E; lra|]. destruct (Qltb_spec y x); [lra|]. split; lra. }
    destruct k as [|k].
    - injection En as ->. destruct (Z eq_refl) as [Z1 Z2]. rewrite Z1, Z2. destruct (Qle_bool t t) eqn:E; [|exfalso; assert (Qle_bool t t = true) by (apply Qle_bool_iff; lra); congruence]. destruct (Qltb_spec t t); [lra|]. cbn. split; lra.
    - cbn in En. destruct (IH p k Hl En) as [I1 I2]. rewrite I1, I2. pose proof (F t (nth_error_In _ _ En)) as Ft. destruct (Qle_bool x t) eqn:E; [|exfalso; assert (Qle_bool x t = true) by (apply Qle_bool_iff; lra); congruence]. destruct (Qltb_spec x t); [|lra]. change (firstn (S (S k)) (q :: p)) with (q :: firstn (S k) p). change (firstn (S k) (q :: p)) with (q :: firstn k p). cbn [sumQ]. split; lra. }
  destruct (G xbins p k t Hl HS H2) as [G1 G2]. rewrite G1, G2. split; [assumption|]. destruct k as [|k]; [unfold cumulative; cbn; assumption|]. apply H4. lia.
Qed.
Print Assumptions C50_fraction.

(** ---- all the sensors ---- *)
Lemma sumQ_scaled s l : ~ s == 0 -> sumQ (map (fun x => x / s) l) == sumQ l / s.
Proof. intros Hs. induction l as [|x l IH]; cbn; [field; assumption|]. rewrite IH. field. assumption. Qed.
Lemma normalize_total l : ~ sumQ l == 0 -> sumQ (normalize l) == 1.
Proof. intros H. unfold normalize. destruct (Qeqb_spec (sumQ l) 0); [contradiction|]. rewrite sumQ_scaled by assumption. field. assumption. Qed.
Lemma sumQ_nonzero l : ~ sumQ l == 0 -> exists q, In q l /\ ~ q == 0.
Proof.
  induction l as [|x l IH]; cbn; intros H; [exfalso; apply H; reflexivity|]. destruct (Qeq_dec x 0) as [E|E]; [|exists x; split; [now left|assumption]]. destruct IH as (q & H1 & H2); [intros K; apply H; rewrite E, K; reflexivity|]. exists q. split; [now right|assumption].
Qed.
Lemma rmap_nth_ok {A B} (f : A -> result B) l r : rmap f l = Ok r -> length r = length l /\ forall i a, nth_error l i = Some a -> exists b, nth_error r i = Some b /\ f a = Ok b.
Proof.
  revert r. induction l as [|a l IH]; intros r H; cbn in H; [injection H as <-; split; [reflexivity|intros [|i] a; discriminate]|]. destruct (f a) as [b|e] eqn:E; [|discriminate]. destruct (rmap f l) as [bs|e]; [|discriminate]. injection H as <-. destruct (IH bs eq_refl) as [I1 I2]. split; [cbn; now rewrite I1|]. intros [|i] x Hx; [injection Hx as <-; now exists b|now apply I2].
Qed.
Lemma rmap_all_ok {A B} (f : A -> result B) l : (forall a, In a l -> exists b, f a = Ok b) -> exists r, rmap f l = Ok r.
Proof. induction l as [|a l IH]; intros H; cbn; [now exists []|]. destruct (H a (or_introl eq_refl)) as (b & ->). destruct IH as (r & ->); [intros; apply H; now right|]. now exists (b :: r). Qed.
Lemma length_map2' {A B C} (f : A -> B -> C) l m : length l = length m -> length (map2 f l m) = length l.
Proof. revert m. induction l as [|a l IH]; intros [|b m] H; try discriminate; [reflexivity|]. cbn. injection H as H. now rewrite IH. Qed.
Lemma nth_error_map2 {A B C} (f : A -> B -> C) l m i a b : nth_error l i = Some a -> nth_error m i = Some b -> nth_error (map2 f l m) i = Some (f a b).
Proof. revert l m. induction i as [|i IH]; intros [|x l] [|y m] H1 H2; try discriminate; cbn in *; [now injection H1 as ->; injection H2 as ->|now apply IH]. Qed.

(** each active sensor with noise gets the threshold of its own distribution; masked sensors and those without noise get none *)
Theorem C50_compute xbins active probs cut : length active = length probs -> Forall (fun p => length p = length xbins) probs ->
  (forall i p, nth_error active i = Some true -> nth_error probs i = Some p -> Forall (fun q => q == 0) p \/ ~ sumQ p == 0) -> cut <= 1 ->
  exists r, compute_thresholds xbins active probs cut (map (fun _ => 1) probs) = Ok r /\ length r = length probs /\
    forall i a p, nth_error active i = Some a -> nth_error probs i = Some p ->
      (a = false \/ Forall (fun q => q == 0) p -> nth_error r i = Some Inf) /\
      (a = true -> ~ sumQ p == 0 -> exists t t', nth_error r i = Some (Fin t') /\ t' == t /\ is_threshold xbins (map (fun x => x / sumQ p) p) cut t).
Proof.
  intros Hl Hw Hp Hc. unfold compute_thresholds, sampler_probs, mask. rewrite Hl, Nat.eqb_refl. cbn [rbind]. set (row := fun (a : bool) (p : list Q) => if a then p else map (fun x => x * 0) p). set (ps := map normalize (map2 row active probs)).
  assert (Lps : length ps = length probs) by (unfold ps; rewrite map_length, length_map2'; assumption).
  assert (Np : forall i a p, nth_error active i = Some a -> nth_error probs i = Some p -> nth_error ps i = Some (normalize (row a p))) by (intros i a p Ha Hi; unfold ps; erewrite map_nth_error; [reflexivity|]; now apply nth_error_map2).
  assert (Zero : forall a p, a = false \/ Forall (fun q => q == 0) p -> Forall (fun q => q == 0) (normalize (row a p))).
  { intros a p H. assert (Z : Forall (fun q => q == 0) (row a p)). { destruct a; cbn [row]; [destruct H as [H|H]; [discriminate|assumption]|]. apply Forall_map, Forall_forall. intros q _. ring. }
    unfold normalize. assert (Es : sumQ (row a p) == 0). { clear - Z. induction Z as [|x l H Z IH]; cbn; [reflexivity|]. rewrite H, IH. reflexivity. } destruct (Qeqb_spec (sumQ (row a p)) 0); [assumption|contradiction]. }
  assert (Some_ : forall a p, a = true -> ~ sumQ p == 0 -> normalize (row a p) = map (fun x => x / sumQ p) p) by (intros a p -> H; unfold normalize, row; destruct (Qeqb_spec (sumQ p) 0); [contradiction|reflexivity]).
  assert (Row : forall i a p, nth_error active i = Some a -> nth_error probs i = Some p -> (a = false \/ Forall (fun q => q == 0) p -> inverse_cdf xbins (np_cumsum (normalize (row a p))) cut = Ok Inf) /\
      (a = true -> ~ sumQ p == 0 -> exists t, inverse_cdf xbins (np_cumsum (normalize (row a p))) cut = Ok (Fin t) /\ is_threshold xbins (map (fun x => x / sumQ p) p) cut t)).
  { intros i a p Ha Hi. split; [intros H; apply C50_no_noise, Zero, H|]. intros H1 H2. rewrite (Some_ a p H1 H2). assert (E1 : sumQ (map (fun x => x / sumQ p) p) == 1) by (rewrite sumQ_scaled by assumption; field; assumption). apply C50_exists.
    - rewrite map_length. rewrite Forall_forall in Hw. apply Hw. eapply nth_error_In, Hi.
    - apply sumQ_nonzero. lra.
    - lra. }
  unfold general_thresholds. destruct (rmap_all_ok (fun p => inverse_cdf xbins (np_cumsum p) cut) ps) as (r & Hr).
  { intros q Hq. apply In_nth_error in Hq. destruct Hq as (i & Hq). assert (Hi : (i < length probs)%nat) by (rewrite <- Lps; apply nth_error_Some; congruence). destruct (nth_error probs i) as [p|] eqn:Ep; [|apply nth_error_None in Ep; lia]. destruct (nth_error active i) as [a|] eqn:Ea; [|apply nth_error_None in Ea; lia].
    rewrite (Np i a p Ea Ep) in Hq. injection Hq as <-. destruct (Row i a p Ea Ep) as [R1 R2]. destruct a; [|exists Inf; apply R1; now left]. destruct (Hp i p Ea Ep) as [H|H]; [exists Inf; apply R1; now right|]. destruct (R2 eq_refl H) as (t & Ht & _). now exists (Fin t). }
  rewrite Hr. cbn [rbind]. destruct (rmap_nth_ok _ _ _ Hr) as [Lr Nr]. rewrite map_length, Lr, Lps, Nat.eqb_refl. exists (map2 times r (map (fun _ => 1) probs)). split; [reflexivity|]. split; [rewrite length_map2'; [congruence|rewrite map_length; congruence]|].
  intros i a p Ha Hi. destruct (Row i a p Ha Hi) as [R1 R2]. destruct (Nr i _ (Np i a p Ha Hi)) as (b & Hb1 & Hb2). assert (N2 : nth_error (map2 times r (map (fun _ => 1) probs)) i = Some (times b 1)) by (apply nth_error_map2; [assumption|]; erewrite map_nth_error; [reflexivity|eassumption]). rewrite N2. split.
  - intros H. rewrite (R1 H) in Hb2. injection Hb2 as <-. reflexivity.
  - intros H1 H2. destruct (R2 H1 H2) as (t & Ht & T). rewrite Ht in Hb2. injection Hb2 as <-. exists t, (t * 1). split; [reflexivity|]. split; [ring|assumption].
Qed.
Print Assumptions C50_compute.

Example C50_example : compute_thresholds [-1; 0; 1; 2] [true; false; true] [[1; 3; 4; 2]; [1; 3; 4; 2]; [0; 0; 0; 0]] (8 # 10) [1; 1; 1] = Ok [Fin 1; Inf; Inf] /\ is_threshold [-1; 0; 1; 2] [1 # 10; 3 # 10; 4 # 10; 2 # 10] (8 # 10) 1.
Proof. split; [reflexivity|]. exists 2%nat. cbn. repeat split; try lia; try easy. intros [|[|j]] Hj; [easy|easy|lia]. Qed.
(** a cut above the total probability is an error *)
Theorem C50_cut_too_large xbins p cut : length p = length xbins -> (exists q, In q p /\ ~ q == 0) -> Forall (fun q => 0 <= q) p -> sumQ p < cut -> inverse_cdf xbins (np_cumsum p) cut = Err IndexError.
Proof.
  intros Hl (q & Hq & Hne) Hn Hc. unfold inverse_cdf. destruct (existsb (fun q => negb (Qeqb q 0)) (np_cumsum p)) eqn:E.
  2: { exfalso. rewrite existsb_nonzero, cumsum_zero, Forall_forall in E. now apply Hne, E. }
  cbn [negb]. unfold inverse_cdf_index. pose proof (first_at_least_spec (np_cumsum p) cut) as S. destruct (first_at_least (np_cumsum p) cut) as [k|]; [|reflexivity]. exfalso. destruct S as (S1 & S2 & _). unfold np_cumsum in *. rewrite length_cumsum in S1. rewrite nth_cumsum in S2 by assumption.
  assert (M : forall k, cumulative p k <= sumQ p). { clear - Hn. unfold cumulative. induction Hn as [|x l H Hn IH]; intros [|k]; cbn; try lra; [|specialize (IH k); lra]. clear IH. assert (0 <= sumQ l) by (clear - Hn; induction Hn; cbn; lra). lra. }
  specialize (M (Datatypes.S k)). lra.
Qed.
Print Assumptions C50_cut_too_large.
