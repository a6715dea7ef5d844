(** Lemmas on the steps of an event of detsim *)
From Coq Require Import Qround.
From Verif Require Import Base Arrays PeaksModel PeaksProofs PeaksMore BuffersModel BuffersSpec BuffersProofs BuffersSlice BuffersEvent WfmProps DetsimModel DetsimSpec DetsimProps DetsimWfs DetsimWave DetsimElectrons DetsimKeep S1Model S1Spec S1Props DsimModel DsimSpec.
Local Open Scope Q_scope.

Lemma light_between_nonneg lt dv els s a b : (forall e k, In e els -> 0 <= light lt s e k) -> 0 <= light_between lt dv els s a b.
Proof. intros H. unfold light_between. apply sumF_nonneg. intros e He. apply sumF_nonneg. intros k _. cbv zeta. destruct (_ && _); [now apply H|lra]. Qed.

Lemma s2_wfs lt dv els tmin width len : usable lt dv width len -> (forall e, In e els -> tmin <= part_time lt dv e 0) -> (forall e s k, In e els -> 0 <= light lt s e k) ->
  exists wfs, create_wfs els lt dv width len tmin = Ok wfs /\ length wfs = num_sensors lt /\ forall s, (s < num_sensors lt)%nat -> length (nth s wfs []) = bins width len /\
  forall b, (b < bins width len)%nat -> nth b (nth s wfs []) 0 == s2_mean lt dv els tmin width (bins width len) s b /\ 0 <= nth b (nth s wfs []) 0.
Proof.
  intros U L N. unfold s2_mean. destruct (Qleb_spec (part_bins lt dv width) 1) as [P|P].
  - destruct (C46_bins lt dv width len tmin els U L P) as (wfs & E & L1 & H). exists wfs. split; [assumption|]. split; [assumption|]. intros s Hs. destruct (H s Hs) as [L2 V]. split; [assumption|]. intros b Hb. split; [now apply V|]. rewrite V by assumption. apply light_between_nonneg. auto.
  - destruct (C46_smeared lt dv width len tmin els U L P) as (wfs & E & L1 & H). exists wfs. split; [assumption|]. split; [assumption|]. intros s Hs. destruct (H s Hs) as [L2 V]. split; [assumption|]. intros b Hb. split; [now apply V|]. rewrite V by assumption. apply sumF_nonneg. intros h _.
    destruct (_ && _); [|lra]. unfold Qdiv. apply Qmult_le_0_compat; [apply Q.le_max_l|]. apply Qinv_le_0_compat. change 0 with (qn 0). apply qn_le. lia.
Qed.

Lemma poisson_ok draw means : (forall row q, In row means -> In q row -> 0 <= q) ->
  exists out, poisson_array draw means = Ok out /\ shape out = shape means /\
  forall s b, (s < length means)%nat -> (b < length (nth s means []))%nat -> nth b (nth s out []) 0 = qn (draw s b (nth b (nth s means []) 0)).
Proof.
  intros H. unfold poisson_array. destruct (existsb _ means) eqn:E.
  { exfalso. apply existsb_exists in E. destruct E as (row & R & E). apply existsb_exists in E. destruct E as (q & Hq & E). apply Qltb_lt in E. specialize (H row q R Hq). lra. }
  eexists. split; [reflexivity|]. split.
  - unfold shape. unfold mapi at 1. generalize 0%nat. clear. induction means as [|r l IH]; intros k; cbn; [reflexivity|]. f_equal; [apply length_mapi|apply IH].
  - intros s b Hs Hb. rewrite (nth_mapi _ means s []) by assumption. now rewrite (nth_mapi _ (nth s means []) b 0) by assumption.
Qed.

Lemma shape_uniform (a : list (list Q)) n : (forall s, (s < length a)%nat -> length (nth s a []) = n) -> shape a = repeat n (length a).
Proof. induction a as [|r a IH]; intros H; [reflexivity|]. cbn. f_equal; [apply (H 0%nat); cbn; lia|]. apply IH. intros s Hs. apply (H (S s)). cbn. lia. Qed.
Lemma uniform_shape (a : list (list Q)) n k : shape a = repeat n k -> length a = k /\ forall s, (s < k)%nat -> length (nth s a []) = n.
Proof. intros H. assert (L : length a = k) by (apply (f_equal (@length nat)) in H; unfold shape in H; rewrite map_length, repeat_length in H; assumption). split; [assumption|]. intros s Hs. change (length (nth s a [])) with (nth s (map (@length Q) a) (length (@nil Q))) || rewrite <- (map_nth (@length Q)). fold (shape a). rewrite H. revert s Hs. clear. induction k as [|k IH]; intros s Hs; [lia|]. destruct s; cbn; [reflexivity|]. apply IH. lia. Qed.
Lemma nth_in_row (means : list (list Q)) row q : In row means -> In q row -> exists s b, (s < length means)%nat /\ (b < length (nth s means []))%nat /\ q = nth b (nth s means []) 0.
Proof. intros R Hq. apply In_nth with (d := []) in R. destruct R as (s & Hs & E). apply In_nth with (d := 0) in Hq. destruct Hq as (b & Hb & F). exists s, b. subst. auto. Qed.

(** the waveforms of S2 *)
Lemma s2_ok draw lt dv els tmin width len : usable lt dv width len -> (forall e, In e els -> tmin <= part_time lt dv e 0) -> (forall e s k, In e els -> 0 <= light lt s e k) ->
  exists wfs, create_s2_waveform draw width lt dv els tmin len = Ok wfs /\ shape wfs = repeat (bins width len) (num_sensors lt) /\
  forall s b, (s < num_sensors lt)%nat -> (b < bins width len)%nat -> exists mean, mean == s2_mean lt dv els tmin width (bins width len) s b /\ nth b (nth s wfs []) 0 = qn (draw s b mean).
Proof.
  intros U L N. destruct (s2_wfs lt dv els tmin width len U L N) as (m & E & L1 & H). unfold create_s2_waveform. rewrite E. cbn [rbind].
  destruct (poisson_ok draw m) as (out & Eo & So & V).
  { intros row q R Hq. destruct (nth_in_row m row q R Hq) as (s & b & Hs & Hb & ->). rewrite L1 in Hs. destruct (H s Hs) as [L2 W]. rewrite L2 in Hb. now apply W. }
  exists out. split; [assumption|]. split; [rewrite So, <- L1; apply shape_uniform; intros s Hs; apply H; now rewrite <- L1|].
  intros s b Hs Hb. destruct (H s Hs) as [L2 W]. exists (nth b (nth s m []) 0). split; [now apply W|]. apply V; [now rewrite L1|now rewrite L2].
Qed.

Section S1.
Variable scintillation : nat -> Q -> nat.
Variable draw : nat -> nat -> Q -> nat.
Variable emitted : Q -> Q.
Variable s1_lt : list Q -> list Q -> list Q -> result (list (list Q)).
Variable sensors : nat.

Definition pes_of (ws : Q) (values : list (list Q)) (s : nat) (hits : list mchit) : list (Q * Q) :=
  mapi (fun i h => (htime h, qn (scintillation i (he h / ws)) * nth s (nth i values []) 0)) hits.
Lemma pes_list f hits values s : length values = length hits ->
  combine (map htime hits) (map2 (fun n row => n * nth s row 0) (mapi f hits) values) = mapi (fun i h => (htime h, f i h * nth s (nth i values []) 0)) hits.
Proof.
  unfold mapi. intros L. enough (G : forall k, combine (map htime hits) (map2 (fun n row => n * nth s row 0) (mapi_from k f hits) values) = mapi_from k (fun i h => (htime h, f i h * nth s (nth (i - k) values []) 0)) hits).
  { rewrite (G 0%nat). assert (X : forall k, mapi_from k (fun i h => (htime h, f i h * nth s (nth (i - 0) values []) 0)) hits = mapi_from k (fun i h => (htime h, f i h * nth s (nth i values []) 0)) hits); [|apply X]. clear. induction hits as [|h l IH]; intros k; cbn; [reflexivity|]. now rewrite Nat.sub_0_r, IH. }
  revert values L. induction hits as [|h l IH]; intros [|v values] L k; try discriminate; [reflexivity|]. cbn. rewrite Nat.sub_diag. f_equal. rewrite IH by (cbn in L; lia).
  clear. assert (G : forall m, (S k <= m)%nat -> mapi_from m (fun i h => (htime h, f i h * nth s (nth (i - S k) values []) 0)) l = mapi_from m (fun i h => (htime h, f i h * nth s match (i - k)%nat with O => v | S x => nth x values [] end 0)) l); [|now apply G].
  induction l as [|h l IH]; intros m Hm; cbn; [reflexivity|]. f_equal; [|apply IH; lia]. destruct (m - k)%nat eqn:E; [lia|]. now replace (m - S k)%nat with n by lia.
Qed.
Lemma nth_of_map_seq {A} (f : nat -> A) n s d : (s < n)%nat -> nth s (map f (seq 0 n)) d = f s.
Proof. intros H. rewrite (nth_indep _ d (f 0%nat)) by (rewrite map_length, seq_length; assumption). rewrite map_nth. now rewrite seq_nth. Qed.
Lemma row_nonneg values s i : (forall row q, In row values -> In q row -> 0 <= q) -> 0 <= nth s (nth i values []) 0.
Proof. intros H. destruct (nth_in_or_default i values []) as [I|E]; [|rewrite E; destruct s; cbn; lra]. destruct (nth_in_or_default s (nth i values []) 0) as [J|E]; [exact (H _ _ I J)|rewrite E; lra]. Qed.
Lemma s1_ok ws width hits tmin len n values : 0 < ws -> 0 < width -> len == qn n * width -> emission emitted -> (0 < sensors)%nat -> (forall h, In h hits -> 0 <= he h) ->
  s1_lt (map hx hits) (map hy hits) (map hz hits) = Ok values -> length values = length hits -> (forall row q, In row values -> In q row -> 0 <= q) ->
  exists wfs, create_s1_waveforms scintillation draw emitted s1_lt sensors ws width hits tmin len = Ok wfs /\ shape wfs = repeat n sensors /\
  forall s b, (s < sensors)%nat -> (b < n)%nat -> exists mean, mean == s1_mean emitted tmin width len n b (pes_of ws values s hits) /\ nth b (nth s wfs []) 0 = qn (draw s b mean).
Proof.
  intros W W' EL Em NS E0 LT LV NV. unfold create_s1_waveforms. assert (Qeqb ws 0 = false) as -> by (apply Qeqb_neq; lra).
  destruct (existsb _ hits) eqn:Ex.
  { exfalso. apply existsb_exists in Ex. destruct Ex as (h & Hh & L). apply Qltb_lt in L. specialize (E0 h Hh). apply (Qlt_not_le _ _ L). unfold Qdiv. apply Qmult_le_0_compat; [assumption|]. apply Qinv_le_0_compat. lra. }
  rewrite LT. cbn [rbind]. set (photons := mapi _ hits). set (pes := s1_pes_at_pmts photons values sensors).
  assert (PS : forall s, (s < sensors)%nat -> nth s pes [] = map2 (fun n row => n * nth s row 0) photons values) by (intros s Hs; unfold pes, s1_pes_at_pmts; now rewrite nth_of_map_seq).
  assert (LP : length pes = sensors) by (unfold pes, s1_pes_at_pmts; now rewrite map_length, seq_length).
  assert (LPh : length photons = length hits) by (unfold photons; apply length_mapi).
  assert (C : forall s, (s < sensors)%nat -> combine (map htime hits) (nth s pes []) = pes_of ws values s hits) by (intros s Hs; rewrite PS by assumption; unfold photons, pes_of; now apply pes_list).
  assert (G : forall p, In p pes -> length p = length (map htime hits) /\ forall q, In q p -> 0 <= q).
  { intros p Hp. apply In_nth with (d := []) in Hp. destruct Hp as (s & Hs & <-). rewrite LP in Hs. rewrite PS by assumption. split; [rewrite length_map2_eq, map_length; [assumption|congruence]|].
    intros q Hq. apply In_nth with (d := 0) in Hq. destruct Hq as (i & Hi & <-). rewrite length_map2_eq in Hi by congruence.
    rewrite (nth_map2 _ _ _ i 0 [] 0) by congruence || lia. apply Qmult_le_0_compat; [|now apply row_nonneg].
    unfold photons. rewrite LPh in Hi. destruct hits as [|h0 hs] eqn:Eh; [cbn in Hi; lia|]. rewrite <- Eh in *. rewrite (nth_mapi _ hits i h0) by assumption. change 0 with (qn 0). apply qn_le. lia. }
  assert (NP : pes <> []) by (intros X; rewrite X in LP; cbn in LP; lia).
  destruct (C75_s1_waveforms emitted pes (map htime hits) len width tmin n W' EL Em NP G) as (m & EM & FM). rewrite EM. cbn [rbind].
  pose proof (C75_total emitted pes (map htime hits) len width tmin n m W' EL Em G EM) as FT.
  assert (LM : length m = sensors) by (rewrite <- (Forall2_len _ _ _ FM); assumption).
  assert (V : forall s, (s < sensors)%nat -> length (nth s m []) = n /\ (forall q, In q (nth s m []) -> 0 <= q) /\ forall j, (j < n)%nat -> nth j (nth s m []) 0 == s1_mean emitted tmin width len n j (pes_of ws values s hits)).
  { intros s Hs. assert (Hs' : (s < length pes)%nat) by now rewrite LP. destruct (Forall2_nth _ _ _ s [] [] FM Hs') as [A1 A2]. destruct (Forall2_nth _ _ _ s [] [] FT Hs') as [A3 _]. rewrite C in A2 by assumption. auto. }
  destruct (poisson_ok draw m) as (out & Eo & So & VO).
  { intros row q R Hq. apply In_nth with (d := []) in R. destruct R as (s & Hs & <-). rewrite LM in Hs. now apply (V s Hs). }
  exists out. split; [assumption|]. split; [rewrite So, <- LM; apply shape_uniform; intros s Hs; apply V; now rewrite <- LM|].
  intros s b Hs Hb. destruct (V s Hs) as (V1 & _ & V3). exists (nth b (nth s m []) 0). split; [now apply V3|]. apply VO; [now rewrite LM|now rewrite V1].
Qed.
End S1.
