(** C95: an event of detsim, from the hits to the buffers *)
From Coq Require Import Qround.
From Verif Require Import Base Arrays PeaksModel PeaksProofs PeaksMore BuffersModel BuffersSpec BuffersProofs BuffersSlice BuffersEvent BuffersProps WfmProps DetsimModel DetsimSpec DetsimProps DetsimWfs DetsimWave DetsimElectrons DetsimKeep S1Model S1Spec S1Props DsimModel DsimSpec DsimProofs.
Local Open Scope Q_scope.

Lemma find_label names name v : (forall p, In p names -> fst p = name -> snd p = v) -> (exists p, In p names /\ fst p = name) -> label_number names name = Ok v.
Proof.
  intros A (p & Hp & E). unfold label_number. destruct (filter _ names) as [|q l] eqn:F.
  - exfalso. assert (I : In p (filter (fun p => Nat.eqb (fst p) name) names)) by (apply filter_In; rewrite E, Nat.eqb_refl; auto). now rewrite F in I.
  - assert (I : In q (filter (fun p => Nat.eqb (fst p) name) names)) by (rewrite F; now left). apply filter_In in I. destruct I as [I J]. apply Nat.eqb_eq in J. f_equal. exact (A _ I J).
Qed.
Lemma select names ACTIVE BUFFER active buff b hits : label_number names ACTIVE = Ok active -> label_number names BUFFER = Ok buff ->
  hits_selector ACTIVE BUFFER b names hits = Ok (in_volumes (if b then [active] else [active; buff]) hits).
Proof. intros A B. unfold hits_selector, in_volumes. rewrite A, B. cbn [rbind]. f_equal. apply filter_ext. intros h. destruct b; cbn; now rewrite ?orb_false_r. Qed.
Lemma select_twice active buff hits : in_volumes [active] (in_volumes [active; buff] hits) = in_volumes [active] hits.
Proof. unfold in_volumes. rewrite filter_filter. apply filter_ext. intros h. cbn. destruct (hlabel h =? active)%nat, (hlabel h =? buff)%nat; reflexivity. Qed.
Lemma sum_photons l : fold_left Z.add l 0%Z = fold_right Z.add 0%Z l.
Proof. apply fold_symmetric; intros; lia. Qed.

Lemma whole_bins w len n : 0 < w -> len == qn n * w -> bins w len = n.
Proof. intros W E. unfold bins. assert (Qceiling (len / w) = Z.of_nat n) as ->; [|now rewrite Nat2Z.id]. apply cdivQ_spec; [assumption|]. rewrite E. unfold qn. rewrite inj_minus. change (inject_Z 1) with 1. split; nra. Qed.
Lemma enough_bins w len : 0 < w -> 0 < len -> len <= qn (bins w len) * w /\ (qn (bins w len) - 1) * w < len.
Proof.
  intros W L. unfold bins. destruct (proj1 (cdivQ_spec len w (Qceiling (len / w)) W) eq_refl) as [H1 H2]. rewrite inj_minus in H1. change (inject_Z 1) with 1 in H1.
  assert (P : (0 < Qceiling (len / w))%Z). { apply inj_lt_inv. change (inject_Z 0) with 0. destruct (Qlt_le_dec 0 (inject_Z (Qceiling (len / w)))) as [X|X]; [assumption|]. exfalso. nra. }
  unfold qn. rewrite Z2Nat.id by lia. auto.
Qed.
Lemma mat_of_shape a n k : (0 < k)%nat -> shape a = repeat n k -> is_mat (to_mat a) /\ cols (to_mat a) = n /\ length (rows (to_mat a)) = k /\ rows (to_mat a) <> [].
Proof.
  intros K H. destruct (uniform_shape a n k H) as [L U]. destruct a as [|r a]; [cbn in L; lia|]. cbn [to_mat cols rows]. assert (C : length r = n) by (apply (U 0%nat); lia). rewrite C. split; [|split; [reflexivity|split; [assumption|discriminate]]].
  unfold is_mat. apply Forall_forall. intros x Hx. cbn [cols rows] in *. apply In_nth with (d := []) in Hx. destruct Hx as (s & Hs & <-). change (length (nth s (r :: a) []) = length r). rewrite C. apply U. rewrite <- L. exact Hs.
Qed.
Lemma light_nonneg lt s e k : good_table lt -> (0 <= eph e)%Z -> 0 <= light lt s e k.
Proof.
  intros G P. unfold light. destruct (values lt (ex e) (ey e) s) as [f|] eqn:V; [|lra]. apply Qmult_le_0_compat; [|change 0 with (inject_Z 0); now apply inj_le].
  destruct (nth_in_or_default k f 0) as [I|E]; [exact (gt_factors lt G _ _ _ _ _ V I)|rewrite E; lra].
Qed.
Lemma add_ok a b n k : shape a = repeat n k -> shape b = repeat n k -> exists out, add_arrays a b = Ok out /\ shape out = repeat n k /\ forall s i, (s < k)%nat -> (i < n)%nat -> nth i (nth s out []) 0 = nth i (nth s a []) 0 + nth i (nth s b []) 0.
Proof.
  intros A B. unfold add_arrays. destruct (list_eq_dec Nat.eq_dec (shape a) (shape b)) as [_|X]; [|exfalso; congruence]. eexists. split; [reflexivity|].
  destruct (uniform_shape a n k A) as [LA UA]. destruct (uniform_shape b n k B) as [LB UB].
  assert (V : forall s, (s < k)%nat -> nth s (map2 (map2 Qplus) a b) [] = map2 Qplus (nth s a []) (nth s b [])) by (intros s Hs; apply nth_map2; lia).
  assert (L : length (map2 (map2 Qplus) a b) = k) by (rewrite length_map2_eq; lia). split.
  - rewrite <- L. apply shape_uniform. rewrite L. intros s Hs. rewrite V, length_map2_eq by assumption || (rewrite UA, UB; auto). now apply UA.
  - intros s i Hs Hi. rewrite V by assumption. apply nth_map2; [now rewrite UA, UB|now rewrite UA].
Qed.

Section Event.
Variable poisson : nat -> nat.
Variable gauss : nat -> Q.
Variable sqrtQ : Q -> Q.
Variable decay : nat -> nat -> Q.
Variables draw_x draw_y draw_z draw_ph : nat -> Q.
Variable scintillation : nat -> Q -> nat.
Variables draw_s1 draw_s2 draw_si : nat -> nat -> Q -> nat.
Variable emitted : Q -> Q.
Variable s1_lt : list Q -> list Q -> list Q -> result (list (list Q)).
Variable s1_sensors : nat.
Variables (c : bcfg) (p : physics) (lt_pmt lt_sipm : light_table).
Variables (r k M : nat).
Hypothesis square_root : forall q, 0 <= sqrtQ q.
Hypothesis square_root0 : forall q, q == 0 -> sqrtQ q == 0.
Hypothesis emission_ok : emission emitted.
(** a sensible readout; the longest event is a whole number of samples of PMTs *)
Hypothesis cfg : good_cfg c r k.
Hypothesis whole : max_time c == qn M * pmt_wid c.
Hypothesis phys : 0 < ws p /\ 0 < wi p /\ 0 < drift_v p /\ 0 <= trans p /\ 0 <= longi p /\ 0 < el_dv p.
Hypotheses (table_pmt : good_table lt_pmt) (table_sipm : good_table lt_sipm).
(** the table of S1 light has the same PMTs and gives them a row per hit without negative values *)
Hypothesis same_pmts : s1_sensors = num_sensors lt_pmt.
Hypothesis table_s1 : forall hits, exists values, s1_lt (map hx hits) (map hy hits) (map hz hits) = Ok values /\ length values = length hits /\ forall row q, In row values -> In q row -> 0 <= q.

Let simulate := simulate_ielectrons poisson gauss sqrtQ decay draw_x draw_y draw_z draw_ph (wi p) (fano p) (drift_v p) (trans p) (longi p) (gain p) (conde p).
Let run := detsim_event poisson gauss sqrtQ decay draw_x draw_y draw_z draw_ph scintillation draw_s1 draw_s2 draw_si emitted s1_lt s1_sensors c p lt_pmt lt_sipm.

Theorem C95_event ACTIVE BUFFER names active buff number timestamp hits :
  (forall x, In x names -> fst x = ACTIVE -> snd x = active) -> (exists x, In x names /\ fst x = ACTIVE) ->
  (forall x, In x names -> fst x = BUFFER -> snd x = buff) -> (exists x, In x names /\ fst x = BUFFER) ->
  hits <> [] -> (forall h, In h hits -> 0 <= he h) ->
  exists first, first_time hits first /\
  let scintillating := in_volumes [active; buff] (in_time (max_time c) first hits) in
  let ionising := in_volumes [active] (in_time (max_time c) first hits) in
  ((forall h, In h ionising -> he h == 0) -> run ACTIVE BUFFER names number timestamp hits = Ok NoActive) /\
  ((exists h, In h ionising /\ ~ he h == 0) -> exists els dz, simulate ionising = Ok (els, dz) /\
    ((fold_right Z.add 0 (map eph els) <= 0)%Z -> run ACTIVE BUFFER names number timestamp hits = Ok DarkEvent) /\
    ((0 < fold_right Z.add 0 (map eph els))%Z -> (forall z, In z dz -> 0 <= z) -> (forall e, In e els -> (0 <= eph e)%Z) ->
      exists rows trs tmin len n m P S values,
        run ACTIVE BUFFER names number timestamp hits = Ok (Written rows)
        (* the time covered *)
        /\ (forall h, In h scintillating -> tmin <= htime h) /\ (exists h, In h scintillating /\ htime h < tmin + sipm_wid c)
        /\ len <= max_time c /\ (len == max_time c \/ forall e, In e els -> et e + el_gap_width lt_sipm / el_dv p <= tmin + len)
        /\ len == qn n * pmt_wid c /\ len <= qn m * sipm_wid c /\ (qn m - 1) * sipm_wid c < len
        (* the waveforms *)
        /\ s1_lt (map hx scintillating) (map hy scintillating) (map hz scintillating) = Ok values
        /\ is_mat P /\ cols P = n /\ length (PeaksModel.rows P) = num_sensors lt_pmt
        /\ (forall s b, (s < num_sensors lt_pmt)%nat -> (b < n)%nat -> exists s1 s2,
              s1 == s1_mean emitted tmin (pmt_wid c) len n b (pes_of scintillation (ws p) values s scintillating)
              /\ s2 == s2_mean lt_pmt (el_dv p) els tmin (pmt_wid c) n s b
              /\ nth b (nth s (PeaksModel.rows P) []) 0 = qn (draw_s1 s b s1) + qn (draw_s2 s b s2))
        /\ is_mat S /\ cols S = m /\ length (PeaksModel.rows S) = num_sensors lt_sipm
        /\ (forall s b, (s < num_sensors lt_sipm)%nat -> (b < m)%nat -> exists s2,
              s2 == s2_mean lt_sipm (el_dv p) els tmin (sipm_wid c) m s b /\ nth b (nth s (PeaksModel.rows S) []) 0 = qn (draw_si s b s2))
        (* the buffers *)
        /\ StronglySorted Nat.lt trs /\ (forall i, In i trs <-> is_trigger P (trigger_threshold c) (Z.of_nat k) i)
        /\ Forall2 (row_of c number timestamp P S) trs rows
        /\ map evt_number rows = map (fun j => number * max_subevt c + Z.of_nat j)%Z (seq 0 (length trs)))).
Proof using All.
  intros NA EA NB EB NE H0. pose proof (find_label names ACTIVE active NA EA) as LA. pose proof (find_label names BUFFER buff NB EB) as LB.
  destruct (filter_hits_after_max_time (max_time c) hits) as [intime|] eqn:F; [|destruct hits; [contradiction|]; unfold filter_hits_after_max_time in F; cbv beta iota zeta in F; match type of F with (if ?b then _ else _) = _ => destruct b; discriminate F end].
  destruct (C67_delayed _ _ _ F) as (first & Fi & Fl & E1). exists first. split; [split; assumption|]. fold (in_time (max_time c) first hits) in E1. cbv zeta.
  set (sc := in_volumes [active; buff] (in_time (max_time c) first hits)). set (io := in_volumes [active] (in_time (max_time c) first hits)).
  assert (Esc : hits_selector ACTIVE BUFFER false names intime = Ok sc) by (rewrite (select names ACTIVE BUFFER active buff) by assumption; subst intime; reflexivity).
  assert (Eio : hits_selector ACTIVE BUFFER true names sc = Ok io) by (rewrite (select names ACTIVE BUFFER active buff) by assumption; unfold sc, io; now rewrite select_twice).
  assert (Psc : forall h, In h sc -> 0 <= he h) by (intros h Hh; apply filter_In in Hh; destruct Hh as [Hh _]; apply filter_In in Hh; now apply H0).
  assert (Pio : forall h, In h io -> 0 <= he h) by (intros h Hh; apply filter_In in Hh; destruct Hh as [Hh _]; apply filter_In in Hh; now apply H0).
  assert (Inc : forall h, In h io -> In h sc). { intros h Hh. unfold io, sc, in_volumes in *. apply filter_In in Hh. destruct Hh as [A B]. apply filter_In. split; [assumption|]. cbn in *. now rewrite orb_false_r in B; rewrite B. }
  unfold run, detsim_event. rewrite F. cbn [rbind]. rewrite Esc. cbn [rbind]. rewrite Eio. cbn [rbind]. split.
  - intros Z. destruct (existsb _ io) eqn:X; [|reflexivity]. exfalso. apply existsb_exists in X. destruct X as (h & Hh & N). apply negb_true_iff, Qeqb_neq in N. now apply N, Z.
  - intros (h0 & Hh0 & N0). assert (X : existsb (fun h => negb (Qeqb (he h) 0)) io = true) by (apply existsb_exists; exists h0; split; [assumption|]; now apply negb_true_iff, Qeqb_neq). rewrite X. cbn [negb].
    destruct phys as (Pws & Pwi & Pv & Ptr & Plo & Pel).
    destruct (C57_succeeds poisson gauss sqrtQ decay draw_x draw_y draw_z draw_ph (wi p) (fano p) (drift_v p) (trans p) (longi p) (gain p) (conde p) io Pwi Pv Ptr Plo ltac:(intros Z; now rewrite Z in Hh0) Pio square_root) as ([els dz] & ES).
    exists els, dz. split; [exact ES|]. fold simulate in ES. unfold simulate in ES. rewrite ES. cbn [rbind fst]. rewrite sum_photons. split.
    + intros D. destruct (Z.leb_spec (fold_right Z.add 0%Z (map eph els)) 0); [reflexivity|lia].
    + intros D Zp Php. destruct (Z.leb_spec (fold_right Z.add 0%Z (map eph els)) 0); [lia|].
      destruct (C57_event poisson gauss sqrtQ decay draw_x draw_y draw_z draw_ph (wi p) (fano p) (drift_v p) (trans p) (longi p) (gain p) (conde p) io els dz ES square_root0) as (produced & nn & _ & Lp & _ & Le & Ld & Lo & He).
      assert (Own : forall e, In e els -> exists h, In h io /\ htime h <= et e).
      { intros e Hi. apply In_nth_error in Hi. destruct Hi as (i & Hi). assert (Li : (i < length els)%nat) by (apply nth_error_Some; congruence).
        destruct (nth_error (owners io nn) i) as [h|] eqn:Ho; [|apply nth_error_None in Ho; lia]. destruct (nth_error dz i) as [z|] eqn:Hz; [|apply nth_error_None in Hz; lia].
        exists h. split.
        - apply nth_error_In in Ho. unfold owners in Ho. apply in_flat_map in Ho. destruct Ho as ([a b] & I1 & I2). cbn in I2. apply repeat_spec in I2. subst. now apply in_combine_l in I1.
        - destruct (He i h e z Ho Hi Hz) as [E _]. assert (0 <= z / drift_v p); [|rewrite E; lra]. unfold Qdiv. apply Qmult_le_0_compat; [apply Zp; now apply nth_error_In in Hz|]. apply Qinv_le_0_compat. lra. }
      assert (NEls : els <> []) by (intros Z; rewrite Z in D; cbn in D; lia).
      destruct (get_buffer_times_and_length (pmt_wid c) (sipm_wid c) (el_gap_width lt_sipm) (el_dv p) (max_time c) (map htime sc) (map et els)) as [[tmin len]|] eqn:B.
      2:{ exfalso. unfold get_buffer_times_and_length in B. destruct sc as [|h1 sc1] eqn:Es; [apply (Inc h0) in Hh0; contradiction|]. destruct els; [contradiction|]. discriminate. }
      pose proof cfg as [Hpw Hr Esw Hk El Hpre Hpost Hmax]. destruct (good_samples c r k cfg) as (Ek & _ & _ & _ & _ & Hsw).
      destruct (C66_buffer _ _ _ _ _ _ _ _ _ Hpw Hsw B) as (T1 & (t1 & T2 & T3) & _ & T4 & T5).
      assert (Wm : Qmax (pmt_wid c) (sipm_wid c) == sipm_wid c). { apply Q.max_r. rewrite Esw. assert (1 <= qn r) by (change 1 with (qn 1); apply qn_le; lia). nra. }
      assert (Gap : 0 < el_gap_width lt_sipm / el_dv p) by (apply Qlt_shift_div_l; [assumption|]; rewrite Qmult_0_l; apply table_sipm).
      assert (Early : forall e, In e els -> tmin <= et e). { intros e Hi. destruct (Own e Hi) as (h & Hh & L). assert (tmin <= htime h) by (apply T1, in_map, Inc, Hh). lra. }
      assert (HL : 0 < len). { destruct T4 as [T4|[T4 _]]; [rewrite T4; assert (0 < buffer_len c) by (rewrite El; pose proof (qn_pos k Hk); nra); lra|]. destruct els as [|e els']; [contradiction|]. specialize (T4 (et e) ltac:(now left)). specialize (Early e ltac:(now left)). lra. }
      assert (exists n, len == qn n * pmt_wid c) as (n & En).
      { destruct T4 as [T4|[_ (j & Ej)]]; [exists M; rewrite T4; exact whole|]. rewrite Wm in Ej. assert (J : (0 < j)%Z). { apply inj_lt_inv. change (inject_Z 0) with 0. destruct (Qlt_le_dec 0 (inject_Z j)); [assumption|]. exfalso. nra. }
        exists (Z.to_nat j * r)%nat. rewrite Ej, Esw. unfold qn. rewrite Nat2Z.inj_mul, Z2Nat.id by lia. rewrite inj_mult. ring. }
      assert (Bn : bins (pmt_wid c) len = n) by now apply whole_bins. set (m := bins (sipm_wid c) len). destruct (enough_bins (sipm_wid c) len Hsw HL) as [M1 M2]. fold m in M1, M2.
      destruct (table_s1 sc) as (vals & V1 & V2 & V3).
      destruct (s1_ok scintillation draw_s1 emitted s1_lt s1_sensors (ws p) (pmt_wid c) sc tmin len n vals Pws Hpw En emission_ok ltac:(rewrite same_pmts; apply table_pmt) Psc V1 V2 V3) as (w1 & W1 & S1 & H1).
      assert (PT : forall lt e, good_table lt -> In e els -> tmin <= part_time lt (el_dv p) e 0).
      { intros lt e G He'. unfold part_time. specialize (Early e He'). change (qn 0) with 0. assert (0 <= (0 + (1 # 2)) * (el_gap_width lt / qn (length (zbins lt))) / el_dv p); [|lra].
        unfold Qdiv. apply Qmult_le_0_compat; [|apply Qinv_le_0_compat; lra]. apply Qmult_le_0_compat; [lra|]. apply Qmult_le_0_compat; [apply Qlt_le_weak, G|]. apply Qinv_le_0_compat. change 0 with (qn 0). apply qn_le. lia. }
      assert (U : forall lt w, good_table lt -> 0 < w -> usable lt (el_dv p) w len) by (intros lt w G W; constructor; [assumption|assumption|apply G|apply G|lra]).
      destruct (s2_ok draw_s2 lt_pmt (el_dv p) els tmin (pmt_wid c) len (U _ _ table_pmt Hpw) (fun e => PT _ e table_pmt) (fun e s j Hi => light_nonneg _ s e j table_pmt (Php e Hi))) as (w2 & W2 & S2 & H2). rewrite Bn in S2, H2.
      destruct (s2_ok draw_si lt_sipm (el_dv p) els tmin (sipm_wid c) len (U _ _ table_sipm Hsw) (fun e => PT _ e table_sipm) (fun e s j Hi => light_nonneg _ s e j table_sipm (Php e Hi))) as (w3 & W3 & S3 & H3). fold m in S3, H3.
      rewrite same_pmts in S1, H1. destruct (add_ok w1 w2 n (num_sensors lt_pmt) S1 S2) as (w4 & W4 & S4 & H4).
      destruct (mat_of_shape w4 n _ (gt_sensors _ table_pmt) S4) as (MP & CP & LP & NP). destruct (mat_of_shape w3 m _ (gt_sensors _ table_sipm) S3) as (MS & CS & LS & NS).
      destruct (C15_triggers (to_mat w4) (trigger_threshold c) (stand_off c)) as (trs & ET & ST & IT).
      assert (Sk : stand_off c = Z.of_nat k) by (unfold stand_off; now apply Qtrunc_nat). rewrite Sk in IT.
      assert (GP : bin_edges (pmt_wid c) (to_mat w4) = grid 0 (pmt_wid c) n) by (unfold bin_edges, grid; now rewrite CP).
      assert (GS : bin_edges (sipm_wid c) (to_mat w3) = grid 0 (sipm_wid c) m) by (unfold bin_edges, grid; now rewrite CS).
      destruct (save_buffers_spec c (@Ok (mat * mat)) number timestamp (grid 0 (pmt_wid c) n) (to_mat w4) (grid 0 (sipm_wid c) m) (to_mat w3) (row_of c number timestamp (to_mat w4) (to_mat w3)) trs ET) as (rows & ER & FR & NR).
      { intros i Hi. apply IT in Hi. destruct Hi as [[Hi _] _]. rewrite CP in Hi.
        destruct (C16_buffer_is_a_window c r k 0 n (to_mat w4) 0 m (to_mat w3) 0%nat i cfg MP CP NP MS CS NS) as (P & S & tb & j & G1 & G2 & G3 & G4 & G5 & G6).
        { change (qn 0) with 0. lra. } { assumption. } { assert (qn i + 1 <= qn n) by (unfold qn; change 1 with (inject_Z 1); rewrite <- inj_plus; apply inj_le; lia). nra. }
        exists (0 + qn i * pmt_wid c), (P, S), (P, S). split; [rewrite grid_nth_error; destruct (Nat.ltb_spec i n); [reflexivity|lia]|]. split; [exact G1|]. split; [reflexivity|].
        intros row R1 R2 R3. injection R3 as <- <-. split; [assumption|]. split; [rewrite R2; ring|]. exists tb. split; [lra|]. split; assumption. }
      exists rows, trs, tmin, len, n, m, (to_mat w4), (to_mat w3), vals. split.
      { cbn [rbind fst snd]. rewrite W1. cbn [rbind]. rewrite W2. cbn [rbind]. rewrite W4. cbn [rbind]. rewrite W3. cbn [rbind]. rewrite GP, GS, ER. reflexivity. }
      split; [intros h Hh; apply T1; now apply in_map|]. split; [apply in_map_iff in T2; destruct T2 as (h & <- & Hh); exists h; split; [assumption|]; rewrite Wm in T3; exact T3|].
      split; [assumption|]. split; [destruct T4 as [T4|[T4 _]]; [now left|right; intros e Hi; apply T4; now apply in_map]|]. split; [assumption|]. split; [assumption|]. split; [assumption|]. split; [assumption|]. split; [assumption|]. split; [assumption|]. split; [assumption|].
      split. { intros s b Hs Hb. destruct (H1 s b Hs Hb) as (m1 & Q1 & R1). destruct (H2 s b Hs Hb) as (m2 & Q2 & R2). exists m1, m2. split; [assumption|]. split; [assumption|]. cbn [PeaksModel.rows to_mat]. rewrite H4, R1, R2 by assumption. reflexivity. }
      split; [assumption|]. split; [assumption|]. split; [assumption|]. split; [intros s b Hs Hb; exact (H3 s b Hs Hb)|]. split; [assumption|]. split; [assumption|]. split; assumption.
Qed.
End Event.
Print Assumptions C95_event.

(** an event with hits in the active volume, one in the buffer, one elsewhere and one too late *)
Definition ev_hits : list mchit :=
  [{| hx := 1; hy := 0; hz := 3; he := 3; htime := 5; hlabel := 1 |}; {| hx := 0; hy := 0; hz := 0; he := 2; htime := 9 # 2; hlabel := 2 |};
   {| hx := 0; hy := 0; hz := 1; he := 9; htime := 4; hlabel := 3 |}; {| hx := 1; hy := 0; hz := 1; he := 9; htime := 90; hlabel := 1 |}].
Definition ev_physics : physics := {| ws := 1; wi := 1; fano := 1 # 10; drift_v := 1; trans := 0; longi := 0; gain := 2; conde := 1; el_dv := 2 |}.
Definition ev_pmts : light_table := {| num_sensors := 2; zbins := [1 # 2]; el_gap_width := 2; values := fun x y s => if Qltb x (qn s) then None else Some [x + 1] |}.
Definition ev_sipms : light_table := {| num_sensors := 1; zbins := [1 # 2]; el_gap_width := 2; values := fun x y s => Some [1] |}.
Definition ev_s1 (xs ys zs : list Q) : result (list (list Q)) := Ok (map (fun _ => [1; 2]) xs).
(** the counts drawn are the whole part of their means *)
Definition ev_draw (s b : nat) (q : Q) : nat := Z.to_nat (Qfloor q).
Definition ev_run := detsim_event (fun _ => 2%nat) (fun _ => 0) (fun _ => 0) (fun i k => 10) (fun _ => 0) (fun _ => 0) (fun _ => 0) (fun _ => 0) (fun _ q => Z.to_nat (Qfloor q))
  ev_draw ev_draw ev_draw ramp ev_s1 2 ex_cfg ev_physics ev_pmts ev_sipms 7 8 [(7, 1); (8, 2)]%nat 3%Z 100.
Definition ev_row : out_row := {| evt_number := 9; time_stamp := 100; nexus_evt := 3; eng := {| cols := 4; rows := [[0; 0; 0; 1]; [0; 0; 1; 2]] |}; trk := {| cols := 2; rows := [[0; 0]] |} |}.
Example C95_example : ev_run ev_hits = Ok (Written [ev_row]).
Proof. vm_compute. reflexivity. Qed.
Example C95_hypotheses : good_cfg ex_cfg 2 4 /\ max_time ex_cfg == qn 12 * pmt_wid ex_cfg /\ good_table ev_pmts /\ good_table ev_sipms /\ emission ramp /\
  (forall hits, exists values, ev_s1 (map hx hits) (map hy hits) (map hz hits) = Ok values /\ length values = length hits /\ forall row q, In row values -> In q row -> 0 <= q) /\
  (forall h, In h ev_hits -> 0 <= he h) /\
  exists els dz, simulate_ielectrons (fun _ => 2%nat) (fun _ => 0) (fun _ => 0) (fun i k => 10) (fun _ => 0) (fun _ => 0) (fun _ => 0) (fun _ => 0) 1 (1 # 10) 1 0 0 2 1 (in_volumes [1%nat] (in_time 12 4 ev_hits)) = Ok (els, dz) /\
    (0 < fold_right Z.add 0 (map eph els))%Z /\ (forall z, In z dz -> 0 <= z) /\ forall e, In e els -> (0 <= eph e)%Z.
Proof.
  split; [constructor; cbn; lra || lia || reflexivity || discriminate|]. split; [reflexivity|].
  split. { constructor; [reflexivity|cbn; lia|cbn; lia|]. intros x y s f q. cbn. destruct (Qltb_spec x (qn s)) as [H|H]; [discriminate|]. intros E. injection E as <-. intros [<-|[]]. assert (0 <= qn s) by (change 0 with (qn 0); apply qn_le; lia). lra. }
  split. { constructor; [reflexivity|cbn; lia|cbn; lia|]. intros x y s f q. cbn. intros E. injection E as <-. intros [<-|[]]. discriminate. }
  split; [apply ramp_emission|]. split. { intros hits. eexists. split; [reflexivity|]. rewrite !map_length. split; [reflexivity|]. intros row q H I. apply in_map_iff in H. destruct H as (x & <- & _). destruct I as [<-|[<-|[]]]; discriminate. }
  split. { intros h [<-|[<-|[<-|[<-|[]]]]]; discriminate. }
  eexists. eexists. split; [vm_compute; reflexivity|]. split; [reflexivity|]. split; [intros z [<-|[<-|[]]]; discriminate|intros e [<-|[<-|[]]]; discriminate].
Qed.
(** finding: the times written count from the start of the buffer, not from the time of the event. The same hits a hundred units of time later give the same rows *)
Theorem C95_start_refuted : ev_run (map (fun h => {| hx := hx h; hy := hy h; hz := hz h; he := he h; htime := htime h + 100; hlabel := hlabel h |}) ev_hits) = ev_run ev_hits.
Proof. vm_compute. reflexivity. Qed.
Print Assumptions C95_start_refuted.
