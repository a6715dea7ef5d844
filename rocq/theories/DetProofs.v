(** Lemmas for C115 *)
From Coq Require Import String Qround Lia.
From Verif Require ReadModel ReadSpec ReadProps ReadMc.
From Verif Require Import Base Arrays PeaksModel BuffersModel BuffersSpec PeaksProofs BuffersProofs BuffersSlice BuffersProps DetsimModel DetsimSpec S1Model S1Spec DsimModel DsimSpec DsimProofs DsimProps DioModel FrunModel BfyModel BfySpec BfyProofs BfyProps DetModel DetSpec.
Local Open Scope nat_scope.
Notation len := List.length.

(** ---- the hits of an event are determined ---- *)
Lemma volume_one names v n n' : volume names v n -> volume names v n' -> n = n'.
Proof. intros [H1 (x & Hx & Ex)] [H2 _]. rewrite <- (H1 x Hx Ex). now apply H2. Qed.
Lemma volumes_one names vs ns ns' : Forall2 (volume names) vs ns -> Forall2 (volume names) vs ns' -> ns = ns'.
Proof. intros F. revert ns'. induction F as [|v n vs ns H F IH]; intros ns' F'; inversion F' as [|? n' ? ? H' F'']; subst; [reflexivity|]. f_equal; [eapply volume_one; eassumption|now apply IH]. Qed.
Lemma first_one hits t t' : first_time hits t -> first_time hits t' -> (t == t')%Q.
Proof. intros [(h & Hh & E) L] [(h' & Hh' & E') L']. specialize (L h' Hh'). specialize (L' h Hh). lra. Qed.
Lemma in_time_same mt t t' l : (t == t')%Q -> in_time mt t l = in_time mt t' l.
Proof. intros E. unfold in_time. apply filter_ext. intros h. destruct (Qltb_spec (htime h - t) mt); destruct (Qltb_spec (htime h - t') mt); try reflexivity; lra. Qed.
Lemma hits_in_one c vs e l l' : hits_in c vs e l -> hits_in c vs e l' -> l = l'.
Proof. intros (t & ls & H1 & H2 & ->) (t' & ls' & H1' & H2' & ->). rewrite (volumes_one _ _ _ _ H2 H2'). now rewrite (in_time_same _ t t') by (eapply first_one; eassumption). Qed.

(** ---- windows of counts ---- *)
Definition counts (m : mat) : Prop := forall s b, s < len (rows m) -> b < cols m -> exists z, (0 <= z < 32768)%Z /\ (nth b (nth s (rows m) []) 0 == inject_Z z)%Q.
Lemma charge_count w m j t : (0 < w)%Q -> is_mat m -> counts m -> j < len (rows m) -> exists z, (0 <= z < 32768)%Z /\ (charge_at 0 w (nth j (rows m) []) t == inject_Z z)%Q.
Proof.
  intros Hw Hm Hc Hj. set (row := nth j (rows m) []). assert (Lr : len row = cols m) by (unfold is_mat in Hm; rewrite Forall_forall in Hm; apply Hm; now apply nth_In).
  destruct (filter (fun i => Qeqb (0 + qn i * w) t) (seq 0 (len row))) as [|i l] eqn:Ef.
  - exists 0%Z. split; [lia|]. unfold charge_at. rewrite Ef. reflexivity.
  - assert (Hi : In i (filter (fun i => Qeqb (0 + qn i * w) t) (seq 0 (len row)))) by (rewrite Ef; now left). apply filter_In in Hi. destruct Hi as [Hi Et]. apply in_seq in Hi. apply Qeqb_eq in Et.
    destruct (Hc j i Hj ltac:(lia)) as (z & Hz & E). exists z. split; [exact Hz|]. rewrite (charge_at_pick 0 w row t (Z.of_nat i) Hw); [|rewrite <- Et; reflexivity]. unfold pick. destruct (Z.ltb_spec (Z.of_nat i) 0); [lia|]. rewrite Nat2Z.id. exact E.
Qed.
Lemma window_stored w m out t0 n : (0 < w)%Q -> is_mat m -> counts m -> window_of 0 w m out t0 n -> exists z, store_array (len (rows m)) (Z.to_nat n) out = Ok z /\ window_of 0 w m (ints n z) t0 n.
Proof.
  intros Hw Hm Hc (H1 & H2 & H3 & H4). unfold store_array. assert (Sz : Forall (fun x => len x = Z.to_nat n) (rows out)) by (unfold is_mat in H2; rewrite <- H1, Nat2Z.id; exact H2).
  rewrite (one_size _ _ _ H3 Sz). cbn [negb].
  destruct (rmap_ok (rmap store_float) (Forall2 (fun x v => x == inject_Z v)%Q) (rows out)) as (z & E & F).
  { intros x Hx. apply rmap_ok. intros q Hq. destruct (In_nth _ _ [] Hx) as (j & Lj & Ej). destruct (In_nth _ _ 0%Q Hq) as (k & Lk & Ek). rewrite Forall_forall in Sz. specialize (Sz x Hx).
    specialize (H4 j k ltac:(lia) ltac:(lia)). rewrite Ej, Ek in H4. destruct (charge_count w m j (t0 + qn k * w) Hw Hm Hc ltac:(lia)) as (v & Bv & Ev). rewrite Ev in H4. exists v. split; [|exact H4].
    unfold store_float. rewrite (trunc_int _ _ H4). destruct (Z.ltb_spec v (-32768)); [lia|]. destruct (Z.ltb_spec 32767 v); [lia|]. reflexivity. }
  exists z. split; [exact E|]. pose proof (Forall2_len _ _ _ F) as Lz. split; [cbn [ints cols]; lia|]. split; [|split].
  - unfold is_mat. cbn [ints cols rows]. clear -F Sz. induction F as [|x v l z H F IH]; [constructor|]. inversion_clear Sz as [|? ? S1 S2]. cbn [map]. constructor; [|now apply IH]. rewrite map_length, <- (Forall2_len _ _ _ H). exact S1.
  - cbn [ints rows]. rewrite map_length. lia.
  - intros j k Hj Hk. cbn [ints cols rows] in *. rewrite <- (H4 j k Hj ltac:(lia)).
    destruct (nth_error (rows out) j) as [x|] eqn:Ex; [|apply nth_error_None in Ex; lia]. destruct (nth_error z j) as [v|] eqn:Ev; [|apply nth_error_None in Ev; lia]. pose proof (f2_nth _ _ _ j v [] F Ev) as Fx. rewrite (nth_error_nth _ _ [] Ex) in Fx.
    rewrite (nth_error_nth _ _ [] Ex). assert (En : nth_error (map (map inject_Z) z) j = Some (map inject_Z v)) by (rewrite nth_error_map, Ev; reflexivity). rewrite (nth_error_nth _ _ [] En).
    assert (Lx : len x = Z.to_nat n) by (rewrite Forall_forall in Sz; apply Sz; now apply nth_error_In in Ex). pose proof (Forall2_len _ _ _ Fx) as Lv.
    destruct (nth_error v k) as [q|] eqn:Eq; [|apply nth_error_None in Eq; lia]. pose proof (f2_nth _ _ _ k q 0%Q Fx Eq) as ->. rewrite (nth_error_nth (map inject_Z v) k 0%Q (x := inject_Z q)) by (now rewrite nth_error_map, Eq). reflexivity.
Qed.

(** the event, for the lemmas on the numbers of the rows *)
Definition as_sim (e : ditem) : simevent := {| sim_evt := di_event e; sim_time := di_time e; sim_pmts := []; sim_sipms := [] |}.

Section Event.
  Variables (sqrtQ emitted : Q -> Q) (s1_lt : list Q -> list Q -> list Q -> result (list (list Q))) (s1_sensors : nat) (p : physics) (lt_pmt lt_sipm : light_table) (ACTIVE BUFFER : nat).
  Variables (pmt_db sipm_db : list nat) (c : bcfg) (r k M : nat).
  Hypothesis square_root : forall q, (0 <= sqrtQ q)%Q.
  Hypothesis square_root0 : forall q, (q == 0 -> sqrtQ q == 0)%Q.
  Hypothesis emission_ok : emission emitted.
  Hypothesis cfg : good_cfg c r k.
  Hypothesis whole_time : (max_time c == qn M * pmt_wid c)%Q.
  Hypothesis phys : (0 < ws p /\ 0 < wi p /\ 0 < drift_v p /\ 0 <= trans p /\ 0 <= longi p /\ 0 < el_dv p)%Q.
  Hypotheses (table_pmt : good_table lt_pmt) (table_sipm : good_table lt_sipm).
  Hypothesis same_pmts : s1_sensors = num_sensors lt_pmt.
  Hypothesis table_s1 : forall hits, exists values, s1_lt (map hx hits) (map hy hits) (map hz hits) = Ok values /\ len values = len hits /\ forall row q, In row values -> In q row -> (0 <= q)%Q.
  Hypotheses (all_pmts : len pmt_db = num_sensors lt_pmt) (all_sipms : len sipm_db = num_sensors lt_sipm).

  Notation energetic := (energetic ACTIVE c). Notation lit := (lit sqrtQ p ACTIVE c). Notation electrons := (electrons sqrtQ p).
  Notation simulated := (simulated sqrtQ emitted s1_lt p lt_pmt lt_sipm ACTIVE BUFFER k c).
  Notation run := (simulate_event sqrtQ emitted s1_lt s1_sensors p lt_pmt lt_sipm ACTIVE BUFFER).

  Lemma few_triggers P trs n : cols P = n -> (qn n * pmt_wid c <= max_time c)%Q -> StronglySorted lt trs -> (forall i, In i trs <-> is_trigger P (trigger_threshold c) (Z.of_nat k) i) -> (Z.of_nat (len trs) <= max_subevt c)%Z.
  Proof using cfg.
    intros Hc Hn S I. destruct (C15_triggers P (trigger_threshold c) (stand_off c)) as (ts & E & S' & I'). pose proof cfg as [Hpw Hr Esw Hk El Hpre Hpost Hmax].
    assert (Sk : stand_off c = Z.of_nat k) by (unfold stand_off; now apply Qtrunc_nat).
    assert (trs = ts) as ->. { apply sorted_same; try assumption. intros x. rewrite I, I', Sk. reflexivity. }
    apply (triggers_bound P (trigger_threshold c) (buffer_len c) (max_time c) (pmt_wid c) k ts Hpw Hk El Hmax); [|exact E].
    rewrite Hc. assert (L : (inject_Z (Z.of_nat n) <= max_time c / pmt_wid c)%Q) by (apply Qle_shift_div_l; [exact Hpw|exact Hn]). pose proof (Qle_ceiling (max_time c / pmt_wid c)) as L2. rewrite Zle_Qle, inject_Z_plus. change (inject_Z 1) with 1%Q. lra.
  Qed.

  Lemma event_simulated d e a b : volume (di_names e) ACTIVE a -> volume (di_names e) BUFFER b -> di_hits e <> [] -> (forall h, In h (di_hits e) -> 0 <= he h)%Q -> (0 <= di_time e)%Q -> draws_fit sqrtQ p ACTIVE c d e ->
    exists rows, simulated d e rows /\ in_range c (as_sim e) rows /\
      ((~ energetic e /\ run d c e = Ok NoActive /\ rows = []) \/ (energetic e /\ ~ lit d e /\ run d c e = Ok DarkEvent /\ rows = []) \/
       (energetic e /\ lit d e /\ exists out, run d c e = Ok (Written out) /\ rmap (store_row pmt_db sipm_db c) out = Ok rows)).
  Proof using All.
    intros Va Vb Ne Pe Pt (Fit & Fp & Fs).
    destruct (C95_event (dd_poisson d) (dd_gauss d) sqrtQ (dd_decay d) (dd_x d) (dd_y d) (dd_z d) (dd_ph d) (dd_scint d) (dd_s1 d) (dd_s2 d) (dd_si d) emitted s1_lt s1_sensors c p lt_pmt lt_sipm r k M
      square_root square_root0 emission_ok cfg whole_time phys table_pmt table_sipm same_pmts table_s1 ACTIVE BUFFER (di_names e) a b (di_event e) (di_time e) (di_hits e) (proj1 Va) (proj2 Va) (proj1 Vb) (proj2 Vb) Ne Pe) as (first & Ft & C1 & C2).
    set (sc := in_volumes [a; b] (in_time (max_time c) first (di_hits e))) in *. set (io := in_volumes [a] (in_time (max_time c) first (di_hits e))) in *.
    fold (run d c e) in C1, C2.
    assert (Hio : hits_in c [ACTIVE] e io) by (exists first, [a]; split; [exact Ft|]; split; [constructor; [exact Va|constructor]|reflexivity]).
    assert (Hsc : hits_in c [ACTIVE; BUFFER] e sc) by (exists first, [a; b]; split; [exact Ft|]; split; [constructor; [exact Va|constructor; [exact Vb|constructor]]|reflexivity]).
    destruct (existsb (fun h => negb (Qeqb (he h) 0)) io) eqn:Ex.
    2:{ assert (Z : forall h, In h io -> (he h == 0)%Q). { intros h Hh. destruct (Qeqb_spec (he h) 0) as [E|N]; [exact E|]. exfalso. assert (X : existsb (fun h => negb (Qeqb (he h) 0)) io = true); [|congruence]. apply existsb_exists. exists h. split; [exact Hh|]. apply negb_true_iff. now apply Qeqb_neq. }
        assert (Nen : ~ energetic e). { intros (l & h & Hl & Hh & N). rewrite (hits_in_one _ _ _ _ _ Hl Hio) in Hh. apply N. now apply Z. }
        exists []. split; [split; [reflexivity|intros; contradiction]|]. split; [split; constructor|]. left. split; [exact Nen|]. split; [now apply C1|reflexivity]. }
    assert (En : exists h, In h io /\ ~ (he h == 0)%Q). { apply existsb_exists in Ex. destruct Ex as (h & Hh & N). exists h. split; [exact Hh|]. apply negb_true_iff in N. now apply Qeqb_neq in N. }
    assert (Een : energetic e) by (destruct En as (h & Hh & N); exists io, h; now repeat split).
    destruct (C2 En) as (els & dz & Es & D1 & D2). clear C1 C2.
    assert (Hel : electrons d io els dz) by exact Es.
    destruct (Z.leb_spec (fold_right Z.add 0%Z (map eph els)) 0) as [Dark|Light].
    { assert (Nl : ~ lit d e). { intros (l & els' & dz' & Hl & Es' & P). rewrite (hits_in_one _ _ _ _ _ Hl Hio) in Es'. unfold DetSpec.electrons in Es', Hel. rewrite Hel in Es'. injection Es' as <- <-. unfold photons in P. lia. }
      exists []. split; [split; [reflexivity|intros; contradiction]|]. split; [split; constructor|]. right. left. split; [exact Een|]. split; [exact Nl|]. split; [now apply D1|reflexivity]. }
    assert (Li : lit d e) by (exists io, els, dz; now repeat split).
    destruct (Fit io els dz Hio Hel) as [Fz Fe]. destruct (D2 Light Fz Fe) as (out & trs & tmin & ln & n & m & P & S & values & Run & T1 & T2 & T3 & T4 & T5 & T6 & T7 & V & P1 & P2 & P3 & P4 & S1 & S2 & S3 & S4 & B1 & B2 & B3 & B4). clear D1 D2.
    pose proof cfg as [Hpw Hr Esw Hk El Hpre Hpost Hmax]. assert (Hsw : (0 < sipm_wid c)%Q) by (rewrite Esw; pose proof (qn_pos r Hr); nra).
    assert (Hbl : (0 <= buffer_len c)%Q) by (rewrite El; pose proof (qn_pos k Hk); nra).
    assert (Np : (0 <= buffer_len c / pmt_wid c)%Q) by (apply Qle_shift_div_l; lra). assert (Ns : (0 <= buffer_len c / sipm_wid c)%Q) by (apply Qle_shift_div_l; lra).
    assert (CP : counts P). { intros s i Hs Hi. rewrite P3 in Hs. rewrite P2 in Hi. destruct (P4 s i Hs Hi) as (q1 & q2 & _ & _ & ->). exists (Z.of_nat (dd_s1 d s i q1) + Z.of_nat (dd_s2 d s i q2))%Z. specialize (Fp s i q1 q2). split; [lia|]. unfold qn. now rewrite inject_Z_plus. }
    assert (CS : counts S). { intros s i Hs Hi. rewrite S3 in Hs. rewrite S2 in Hi. destruct (S4 s i Hs Hi) as (q1 & _ & ->). exists (Z.of_nat (dd_si d s i q1)). specialize (Fs s i q1). split; [lia|]. reflexivity. }
    assert (Fw : forall js, len js = len trs -> Forall2 (fun (j : nat) row => evt_number row = (di_event e * max_subevt c + Z.of_nat j)%Z) js out -> exists rows, rmap (store_row pmt_db sipm_db c) out = Ok rows /\ Forall2 (fun ji row => det_row c e P S (fst ji) (snd ji) row) (combine js trs) rows).
    { clear B1 B2 B4 Run. induction B3 as [|i row trs out (R1 & R2 & tb & R3 & R4 & R5) F IH]; intros js Lj Fj; inversion Fj as [|j ? js' ? Ej Fj']; subst; try discriminate; [exists []; split; [reflexivity|constructor]|].
      cbn [len] in Lj. destruct (IH js' ltac:(lia) Fj') as (rows & E & F2).
      destruct (window_stored _ _ _ _ _ Hpw P1 CP R4) as (zp & Ep & Wp). destruct (window_stored _ _ _ _ _ Hsw S1 CS R5) as (zs & Ez & Ws). rewrite P3, <- all_pmts in Ep. rewrite S3, <- all_sipms in Ez.
      assert (Ht : (0 <= time_stamp row)%Q). { rewrite R2. assert (0 <= qn i)%Q by (unfold qn; change 0%Q with (inject_Z 0); rewrite <- Zle_Qle; lia). nra. }
      exists ({| br_event := evt_number row; br_time := Qfloor (time_stamp row); br_nexus := nexus_evt row; br_pmt := zp; br_sipm := zs |} :: rows). cbn [rmap]. unfold store_row at 1, store_time. rewrite qltb_false by exact Ht. cbn [rbind].
      rewrite !trunc_nonneg by assumption. rewrite Ep. cbn [rbind]. rewrite Ez. cbn [rbind]. rewrite E. cbn [rbind combine]. split; [reflexivity|]. constructor; [|exact F2].
      cbn [fst snd]. unfold det_row. cbv zeta. cbn [br_event br_nexus br_time br_pmt br_sipm]. split; [exact Ej|]. split; [exact R1|]. split; [apply Qfloor_comp; exact R2|]. exists tb. split; [exact R3|]. split; assumption. }
    pose proof (Forall2_len _ _ _ B3) as Lo.
    destruct (Fw (seq 0 (len trs)) (seq_length _ _)) as (rows & Er & Fr).
    { clear -B4. revert B4. generalize (seq 0 (len trs)) as js. induction out as [|row out IH]; intros [|j js] B; try discriminate; constructor; cbn [map] in B; injection B as B B'; [exact B|now apply IH]. }
    assert (Few : (Z.of_nat (len trs) <= max_subevt c)%Z) by (apply (few_triggers P trs n P2); try assumption; rewrite <- T5; exact T3).
    exists rows. split; [split; [tauto|]|].
    { intros _ _. exists io, sc, els, dz, tmin, ln, n, m, P, S, trs. split; [exact Hio|]. split; [exact Hsc|]. split; [exact Hel|]. split; [now repeat split|]. split; [exists values; split; [exact V|]; split; [exact P1|]; split; [exact P2|]; split; [exact P3|exact P4]|]. split; [now repeat split|]. split; [exact B1|]. split; [exact B2|]. exact Fr. }
    split.
    { assert (En' : map br_event rows = map (fun j => (di_event e * max_subevt c + Z.of_nat j)%Z) (seq 0 (len trs)) /\ Forall (fun row => br_nexus row = di_event e) rows).
      { assert (Lc : len (seq 0 (len trs)) = len trs) by apply seq_length. revert Lc Fr. clear. generalize (seq 0 (len trs)) as js. revert rows. induction trs as [|i trs IH]; intros rows [|j js] Lc F; try discriminate; cbn [combine] in F; inversion F as [|? row ? rows' H F']; subst; [split; [reflexivity|constructor]|].
        cbn [len] in Lc. destruct (IH rows' js ltac:(lia) F') as [A B]. destruct H as (H1 & H2 & _). cbn [fst] in H1. cbn [map]. rewrite H1, A. split; [reflexivity|now constructor]. }
      destruct En' as [En1 En2]. split.
      - apply Forall_forall. intros row Hrow. cbn [as_sim sim_evt]. split; [rewrite Forall_forall in En2; now apply En2|]. apply (in_map br_event) in Hrow. rewrite En1 in Hrow. apply in_map_iff in Hrow. destruct Hrow as (j & <- & Hj). apply in_seq in Hj. lia.
      - rewrite En1. apply FinFun.Injective_map_NoDup; [|apply seq_NoDup]. intros x y E. lia. }
    right. right. split; [exact Een|]. split; [exact Li|]. exists out. split; [exact Run|exact Er].
  Qed.
End Event.
