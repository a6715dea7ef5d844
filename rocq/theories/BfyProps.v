(** C114: the tables of a run of buffy *)
From Coq Require Import String Qround Lia.
From Verif Require ReadModel ReadSpec ReadProps ReadMc.
From Verif Require Import Base ConfigModel ReadModel TablesModel SbinModel SbinSpec SbinProps PeaksModel BuffersModel BuffersSpec BuffersEvent PeaksProofs BuffersProps NoiseModel FeeModel HypaModel TrigModel DioModel FrunModel BfyModel BfySpec BfyProofs.
Local Open Scope nat_scope.

Section Buffy.
  Variables (float unit : string -> option Q) (is_pmt_name : string -> bool) (pmt_db sipm_db : list nat).
  Notation at_sensor := (at_sensor float unit). Notation light := (light float unit). Notation a_pmt := (a_pmt pmt_db). Notation a_sipm := (a_sipm sipm_db).
  Notation event_in := (event_in float unit pmt_db). Notation good_sim := (good_sim float unit pmt_db sipm_db is_pmt_name).

  (** ---- the files ---- *)
  Lemma pmt_in i : In i (map Z.of_nat pmt_db) <-> a_pmt i.
  Proof using. rewrite in_map_iff. split; intros (j & H1 & H2); exists j; split; congruence. Qed.
  Lemma kept_light conf f (chosen : Z -> Prop) (ev : Z) rows own : good_sim f conf ->
    Forall2 (fun r s => exists name w, In (r_sensor r, name) (nf_pos f) /\ declared float unit conf name w /\ s_event s = r_event r /\ s_sensor s = r_sensor r /\ s_charge s = r_charge r /\ s_time s = Some (w * inject_Z (r_bin r))%Q) (nf_resp f) rows ->
    ReadSpec.kept (fun s => s_event s = ev /\ chosen (s_sensor s)) rows own -> exists l, rmap to_simrow own = Ok l /\ light conf f chosen ev l.
  Proof using.
    intros G F. assert (Hpos : forall r, In r (nf_resp f) -> (0 <= r_sensor r)%Z) by (intros r Hr; destruct (si_sensor _ _ _ _ _ _ _ G r Hr) as [(j & _ & ->)|(j & _ & ->)]; lia).
    unfold BfySpec.light. clear G. revert own. induction F as [|r s resp rows (name & w & I1 & I2 & E1 & E2 & E3 & E4) F IH]; intros own K.
    - inversion K; subst. exists []. split; [reflexivity|]. exists []. split; constructor.
    - inversion K as [|? ? out P K'|? ? out P K']; subst.
      + destruct (IH (fun r' Hr => Hpos r' (or_intror Hr)) out K') as (l & E & own' & K2 & F2). exists ({| sid := Z.to_nat (s_sensor s); stime := (w * inject_Z (r_bin r))%Q; scharge := s_charge s |} :: l). cbn [rmap]. unfold to_simrow at 1. rewrite E4.
        assert (H0 : (0 <= r_sensor r)%Z) by (apply Hpos; now left). destruct (Z.ltb_spec (s_sensor s) 0); [lia|]. cbn [rbind]. rewrite E. split; [reflexivity|]. exists (r :: own'). split.
        * apply ReadSpec.kp_yes; [now rewrite <- E1, <- E2|exact K2].
        * constructor; [|exact F2]. split; [cbn; rewrite E2; lia|]. split; [exact E3|]. exists name, w. now split.
      + destruct (IH (fun r' Hr => Hpos r' (or_intror Hr)) own K') as (l & E & own' & K2 & F2). exists l. split; [exact E|]. exists own'. split; [|exact F2]. apply ReadSpec.kp_no; [now rewrite <- E1, <- E2|exact K2].
  Qed.
  Definition of_event conf f (ev : Z) (it : Z * (list ReadModel.stime * list ReadModel.stime)) : Prop :=
    fst it = ev /\ exists p s, rmap to_simrow (fst (snd it)) = Ok p /\ rmap to_simrow (snd (snd it)) = Ok s /\ light conf f a_pmt ev p /\ light conf f (fun i => ~ a_pmt i) ev s.
  Lemma file_sensors f conf : good_sim f conf -> exists part, sensors_of_nfile float unit is_pmt_name pmt_db f = (part, None) /\ Forall2 (of_event conf f) (nf_events f) part.
  Proof using.
    intros G. unfold sensors_of_nfile. rewrite (si_conf _ _ _ _ _ _ _ G). destruct (C89_binning float unit conf (si_read _ _ _ _ _ _ _ G)) as (bins & -> & Nb & Ib).
    set (mf := {| m_resp := nf_resp f; m_bins := bins; m_pos := nf_pos f; m_events := nf_events f |}).
    assert (Kn : ReadMc.known_sensors mf). { split; [apply (si_once _ _ _ _ _ _ _ G)|]. split; [exact Nb|]. intros r Hr. destruct (si_known _ _ _ _ _ _ _ G r Hr) as (name & w & H1 & H2 & H3 & H4 & _). exists name, w. split; [exact H1|]. apply Ib. now repeat split. }
    pose proof (ReadMc.all_timed mf Kn) as Tm. unfold sensors_of_file. set (rows := convert_timebin_to_time (m_resp mf) (m_bins mf) (m_pos mf)) in *.
    assert (A : forallb (fun '(id, name) => negb (is_pmt_name name) || existsb (Z.eqb id) (map Z.of_nat pmt_db)) (m_pos mf) = true).
    { apply forallb_forall. intros [id name] Hi. destruct (is_pmt_name name) eqn:En; [|reflexivity]. cbn [negb orb]. apply ReadMc.isin_spec, pmt_in. eapply (si_pmts _ _ _ _ _ _ _ G); eassumption. }
    cbv zeta. rewrite A. eexists. split; [reflexivity|]. cbn [m_events mf].
    assert (Tm' : Forall2 (fun r s => exists name w, In (r_sensor r, name) (nf_pos f) /\ declared float unit conf name w /\ s_event s = r_event r /\ s_sensor s = r_sensor r /\ s_charge s = r_charge r /\ s_time s = Some (w * inject_Z (r_bin r))%Q) (nf_resp f) rows).
    { clearbody rows. cbn [mf m_bins m_pos m_resp] in Tm. clear -Tm Ib. induction Tm as [|r s resp rows (E1 & E2 & E3 & name & w & I1 & I2 & E4 & E5) F IH]; constructor; [|exact IH]. exists name, w. apply Ib in I2. destruct I2 as [I2 _]. now repeat split. }
    clearbody rows. clear Tm A Kn mf Nb Ib bins. induction (nf_events f) as [|ev l IH]; [constructor|]. cbn [map]. constructor; [|exact IH]. split; [reflexivity|]. cbn [fst snd].
    destruct (kept_light conf f a_pmt ev rows (filter (fun r => existsb (Z.eqb (s_sensor r)) (map Z.of_nat pmt_db)) (filter (fun r => Z.eqb (s_event r) ev) rows)) G Tm') as (p & Ep & Lp).
    { rewrite filter_filter. apply ReadProps.kept_filter. intros s. rewrite andb_true_iff, Z.eqb_eq, ReadMc.isin_spec, pmt_in. tauto. }
    destruct (kept_light conf f (fun i => ~ a_pmt i) ev rows (filter (fun r => negb (existsb (Z.eqb (s_sensor r)) (map Z.of_nat pmt_db))) (filter (fun r => Z.eqb (s_event r) ev) rows)) G Tm') as (s & Es & Ls).
    { rewrite filter_filter. apply ReadProps.kept_filter. intros s. rewrite andb_true_iff, Z.eqb_eq, negb_true_iff, <- pmt_in, <- ReadMc.isin_spec. destruct (existsb _ _); intuition congruence. }
    exists p, s. now repeat split.
  Qed.
  (** the light of an event of a file that can be read *)
  Lemma light_sum conf f ch ev l i : (forall r, In r (nf_resp f) -> 0 <= r_charge r)%Q -> light conf f ch ev l -> (sumF scharge (filter (fun h => sid h =? i) l) <= sumF r_charge (filter (fun r => (r_event r =? ev)%Z && (r_sensor r =? Z.of_nat i)%Z) (nf_resp f)))%Q.
  Proof using.
    intros Hc (own & K & F). revert l F. induction K as [|r resp own [P _] K IH|r resp own P K IH]; intros l F.
    - inversion F; subst. cbn. lra.
    - inversion F as [|? h ? l' (A1 & A2 & _) F']; subst. cbn [filter]. specialize (IH (fun r' Hr => Hc r' (or_intror Hr)) l' F'). rewrite Z.eqb_refl. cbn [andb].
      destruct (Nat.eqb_spec (sid h) i) as [<-|N]; [rewrite A1 in IH |- *; rewrite Z.eqb_refl, !sumF_cons, A2; lra|]. destruct (Z.eqb_spec (r_sensor r) (Z.of_nat i)); [lia|exact IH].
    - cbn [filter]. specialize (IH (fun r' Hr => Hc r' (or_intror Hr)) l F). destruct (_ && _)%bool; [|exact IH]. rewrite sumF_cons. specialize (Hc r (or_introl eq_refl)). lra.
  Qed.
  Lemma light_in conf f ch ev l h : light conf f ch ev l -> In h l -> exists r, In r (nf_resp f) /\ ch (r_sensor r) /\ at_sensor conf (nf_pos f) r h.
  Proof using.
    intros (own & K & F) Hh. assert (Ho : exists r, In r own /\ at_sensor conf (nf_pos f) r h). { clear K. induction F as [|r x own l A F IH]; [easy|]. destruct Hh as [->|Hh]; [exists r; split; [now left|exact A]|]. destruct (IH Hh) as (r' & I & A'). exists r'. split; [now right|exact A']. }
    destruct Ho as (r & Hr & A). exists r. assert (G : In r (nf_resp f) /\ ch (r_sensor r)); [|tauto]. clear -K Hr. induction K as [|x l out [_ P] K IH|x l out P K IH]; [easy| |].
    - destruct Hr as [->|Hr]; [split; [now left|exact P]|]. destruct (IH Hr) as [I1 I2]. split; [now right|exact I2].
    - destruct (IH Hr) as [I1 I2]. split; [now right|exact I2].
  Qed.
  Lemma in_file_fits rate f conf ev e : (0 < rate)%Q -> good_sim f conf -> event_in rate f ev e -> event_fits pmt_db sipm_db e.
  Proof using.
    intros Hr G (E0 & (P1 & _) & conf' & Ec & Lp & Ls). rewrite (si_conf _ _ _ _ _ _ _ G) in Ec. injection Ec as <-.
    assert (Hc : forall r, In r (nf_resp f) -> (0 <= r_charge r)%Q) by (intros r Hin; apply (si_bins _ _ _ _ _ _ _ G r Hin)).
    assert (Hx : forall ch l h, light conf f ch ev l -> In h l -> (0 <= stime h /\ 0 <= scharge h)%Q /\ exists r, In r (nf_resp f) /\ ch (r_sensor r) /\ Z.of_nat (sid h) = r_sensor r).
    { intros ch l h L Hh. destruct (light_in conf f ch ev l h L Hh) as (r & I & C & A1 & A2 & name & w & I2 & D & A3). split; [|exists r; now repeat split]. split; [|rewrite A2; now apply Hc]. rewrite A3.
      destruct (si_bins _ _ _ _ _ _ _ G r I) as [B _]. destruct (si_known _ _ _ _ _ _ _ G r I) as (name' & w' & I2' & D' & _ & _ & W). assert (name' = name) as ->. { pose proof (si_once _ _ _ _ _ _ _ G) as Nd. clear -I2 I2' Nd. induction (nf_pos f) as [|[i n] l IH]; [easy|]. inversion_clear Nd as [|? ? N1 N2]. destruct I2 as [E|I2]; destruct I2' as [E'|I2'].
          - congruence.
          - injection E as -> ->. exfalso. apply N1. now apply (in_map fst) in I2'.
          - injection E' as -> ->. exfalso. apply N1. now apply (in_map fst) in I2.
          - now apply IH. }
      assert (w' = w) as ->.
      { destruct (C89_binning float unit conf (si_read _ _ _ _ _ _ _ G)) as (bins & _ & Nb & Ib). destruct (si_known _ _ _ _ _ _ _ G r I) as (n2 & w2 & J2 & J3 & Pl & Ge & _). assert (In (name, w) bins /\ In (name, w') bins) as [B1 B2].
        { assert (n2 = name) as ->. { pose proof (si_once _ _ _ _ _ _ _ G) as Nd. clear -I2 J2 Nd. induction (nf_pos f) as [|[i n] l IH]; [easy|]. inversion_clear Nd as [|? ? N1 N2]. destruct I2 as [E|I2]; destruct J2 as [E'|J2].
            - congruence.
            - injection E as -> ->. exfalso. apply N1. now apply (in_map fst) in J2.
            - injection E' as -> ->. exfalso. apply N1. now apply (in_map fst) in I2.
            - now apply IH. }
          split; apply Ib; now repeat split. }
        clear -B1 B2 Nb. induction bins as [|[n x] l IH]; [easy|]. inversion_clear Nb as [|? ? N1 N2]. destruct B1 as [E|B1]; destruct B2 as [E'|B2].
          - congruence.
          - injection E as -> ->. exfalso. apply N1. now apply (in_map fst) in B2.
          - injection E' as -> ->. exfalso. apply N1. now apply (in_map fst) in B1.
          - now apply IH. }
      assert (0 <= inject_Z (r_bin r))%Q by (change 0%Q with (inject_Z 0); now rewrite <- Zle_Qle). nra. }
    split; [intros h Hh; apply in_app_iff in Hh; destruct Hh as [Hh|Hh]; [exact (proj1 (Hx _ _ _ Lp Hh))|exact (proj1 (Hx _ _ _ Ls Hh))]|]. split.
    { assert (0 <= inject_Z (Z.abs ev))%Q by (change 0%Q with (inject_Z 0); rewrite <- Zle_Qle; lia). apply Qnot_lt_le. intros N. nra. }
    split; [|split; [|split]].
    - intros h Hh. destruct (Hx _ _ _ Lp Hh) as (_ & r & _ & (j & Hj & E) & E'). assert (sid h = j) as -> by lia. exact Hj.
    - intros h Hh. destruct (Hx _ _ _ Ls Hh) as (_ & r & I & N & E'). destruct (si_sensor _ _ _ _ _ _ _ G r I) as [C|(j & Hj & E)]; [contradiction|]. assert (sid h = j) as -> by lia. exact Hj.
    - intros i. eapply Qle_lt_trans; [exact (light_sum _ _ _ _ _ i Hc Lp)|apply (si_fits _ _ _ _ _ _ _ G)].
    - intros i. eapply Qle_lt_trans; [exact (light_sum _ _ _ _ _ i Hc Ls)|apply (si_fits _ _ _ _ _ _ _ G)].
  Qed.

  (** ---- the events ---- *)
  Variables (c : bcfg) (r k : nat).
  Hypothesis Gc : good_cfg c r k.
  Hypothesis Sp : StronglySorted lt pmt_db.
  Hypothesis Ss : StronglySorted lt sipm_db.
  Variables (rate rate0 : Q) (draw : nat -> Q).
  Hypothesis Hr : ReadMc.effective_rate rate rate0.
  Hypothesis Hd : forall n, (0 <= draw n /\ draw n < 1)%Q.
  Notation rows_of := (rows_of pmt_db sipm_db c).

  Lemma run_grows items : forall o evs0, Forall2 (fun it (x : nfile * list conf_row * Z) => let '(f, conf, ev) := x in good_sim f conf /\ of_event conf f ev it) items evs0 ->
    exists o' evs rowss, buffy_all pmt_db sipm_db c rate draw items o = Ok o' /\
      Forall2 (fun (x : nfile * list conf_row * Z) e => event_in rate0 (fst (fst x)) (snd x) e) evs0 evs /\ Forall2 (fun e rows => rows_of e rows /\ in_range c e rows) evs rowss /\
      bt_rows o' = bt_rows o ++ List.concat rowss /\
      (exists dets, bt_detected o' = bt_detected o ++ dets /\ Forall2 (flagged sim_evt detected) evs dets) /\
      (exists seen sigs, ReadSpec.kept (fun x => detected (fst x)) (combine evs rowss) seen /\ bt_signal o' = bt_signal o ++ sigs /\ Forall2 (flagged (fun x => sim_evt (fst x)) (fun x => snd x <> [])) seen sigs /\ bt_resp o' = bt_resp o + len seen) /\
      (exists written, ReadSpec.kept (fun x => snd x <> []) (combine evs rowss) written /\ bt_numbers o' = bt_numbers o ++ map (fun x => sim_evt (fst x)) written) /\ bt_in o' = bt_in o + len evs.
  Proof using Gc Sp Ss Hr Hd.
    pose proof (ReadMc.safe_rate_spec _ _ Hr) as [_ R0].
    induction items as [|[ev [p s]] items IH]; intros o evs0 F; inversion F as [|? [[f conf] ev'] ? evs0' (G & E0 & pl & sl & Ep & Es & Lp & Ls) F']; subst.
    { exists o, [], []. cbn. rewrite !app_nil_r, !Nat.add_0_r. do 4 (split; [try reflexivity; constructor|]). split; [exists []; rewrite app_nil_r; split; constructor|]. split; [exists [], []; rewrite app_nil_r, Nat.add_0_r; repeat split; constructor|]. split; [exists []; rewrite app_nil_r; split; constructor|reflexivity]. }
    cbn [fst snd] in Ep, Es, Lp, Ls.
    set (e := {| sim_evt := ev; sim_time := create_timestamp rate ev (draw (bt_in o)); sim_pmts := pl; sim_sipms := sl |}).
    assert (Ev : event_in rate0 f ev e). { split; [reflexivity|]. split; [destruct (Hd (bt_in o)); now apply ReadMc.timestamp_in_period|]. exists conf. split; [apply (si_conf _ _ _ _ _ _ _ G)|]. now split. }
    assert (Lpl : len pl = len p) by (symmetry; exact (Forall2_len _ _ _ (rmap_forall2 _ _ _ Ep))). assert (Lsl : len sl = len s) by (symmetry; exact (Forall2_len _ _ _ (rmap_forall2 _ _ _ Es))).
    cbn [buffy_all]. destruct (_ || _)%bool eqn:Eb.
    - assert (Nd : ~ detected e). { intros [D1 D2]. cbn in D1, D2. destruct p as [|a p]; [destruct pl; [now apply D1|discriminate]|]. destruct s as [|a' s]; [destruct sl; [now apply D2|discriminate]|]. discriminate. }
      match goal with |- context [buffy_all _ _ _ _ _ items ?o1] => destruct (IH o1 evs0' F') as (o' & evs & rowss & A0 & A1 & A2 & A3 & (dets & A4 & A5) & (seen & sigs & A6 & A7 & A8 & A9) & (written & A10 & A11) & A12) end.
      exists o', (e :: evs), ([] :: rowss). cbn [bt_detected bt_signal bt_rows bt_numbers bt_in bt_resp] in *. split; [exact A0|]. split; [now constructor|]. split.
      { constructor; [|exact A2]. split; [split; [reflexivity|intros D; contradiction]|]. split; [constructor|constructor]. }
      split; [exact A3|]. split; [exists ((ev, false) :: dets); rewrite <- app_assoc in A4; split; [exact A4|]; constructor; [|exact A5]; split; [reflexivity|]; split; [discriminate|intros D; contradiction]|]. split.
      { exists seen, sigs. split; [cbn [combine]; apply ReadSpec.kp_no; [exact Nd|exact A6]|]. now repeat split. }
      split; [exists written; split; [cbn [combine]; apply ReadSpec.kp_no; [intros X; now apply X|exact A10]|exact A11]|]. cbn [len]. lia.
    - assert (D : detected e). { split; cbn; intros X; subst; destruct p, s; discriminate. }
      destruct (event_written c r k pmt_db sipm_db e Gc Sp Ss (in_file_fits rate0 f conf ev e R0 G Ev) D) as (out & rows & B1 & B2 & B3 & B4). rewrite Ep, Es. cbn [rbind]. fold e. rewrite B1. cbn [rbind]. rewrite B2. cbn [rbind].
      match goal with |- context [buffy_all _ _ _ _ _ items ?o1] => destruct (IH o1 evs0' F') as (o' & evs & rowss & A0 & A1 & A2 & A3 & (dets & A4 & A5) & (seen & sigs & A6 & A7 & A8 & A9) & (written & A10 & A11) & A12) end.
      cbn [bt_detected bt_signal bt_rows bt_numbers bt_in bt_resp] in *. pose proof (Forall2_len _ _ _ (rmap_forall2 _ _ _ B2)) as Lo.
      exists o', (e :: evs), (rows :: rowss). split; [exact A0|]. split; [now constructor|]. split; [constructor; [now split|exact A2]|]. split; [cbn [List.concat]; now rewrite app_assoc|].
      split; [exists ((ev, true) :: dets); rewrite <- app_assoc in A4; split; [exact A4|]; constructor; [|exact A5]; split; [reflexivity|]; split; [intros _; exact D|reflexivity]|]. split.
      { exists ((e, rows) :: seen), ((ev, match out with [] => false | _ => true end) :: sigs). split; [cbn [combine]; apply ReadSpec.kp_yes; [exact D|exact A6]|]. split; [now rewrite <- app_assoc in A7|]. split; [|cbn [len]; lia].
        constructor; [|exact A8]. split; [reflexivity|]. cbn [snd]. destruct out, rows; try discriminate; split; congruence. }
      split; [|cbn [len]; lia]. destruct out as [|o1 out].
      + destruct rows; [|discriminate]. exists written. split; [cbn [combine]; apply ReadSpec.kp_no; [intros X; now apply X|exact A10]|]. now rewrite app_nil_r in A11.
      + destruct rows as [|r1 rows]; [discriminate|]. exists ((e, r1 :: rows) :: written). split; [cbn [combine]; apply ReadSpec.kp_yes; [discriminate|exact A10]|]. rewrite A11, <- app_assoc. reflexivity.
  Qed.
  Lemma numbers_differ evs rowss : Forall2 (fun e rows => in_range c e rows) evs rowss -> NoDup (map sim_evt evs) -> NoDup (map br_event (List.concat rowss)).
  Proof using Gc.
    assert (M : (0 < max_subevt c)%Z) by (pose proof (max_subevt_pos c k (gc_pw _ _ _ Gc) (gc_k _ _ _ Gc) (gc_len _ _ _ Gc) (gc_max _ _ _ Gc)); lia).
    induction 1 as [|e rows evs rowss [H1 H2] F IH]; intros N; [constructor|]. cbn [map] in N. inversion_clear N as [|? ? N1 N2]. cbn [List.concat]. rewrite map_app. apply NoDup_app_disjoint; [exact H2|auto|].
    intros x Hx Hy. apply in_map_iff in Hx. destruct Hx as (row & <- & Hrow). rewrite Forall_forall in H1. destruct (H1 row Hrow) as [_ B].
    assert (Ho : exists e', In e' evs /\ (sim_evt e' * max_subevt c <= br_event row < sim_evt e' * max_subevt c + max_subevt c)%Z).
    { clear -F Hy. induction F as [|e' rows' evs rowss [K1 _] F IH]; [easy|]. cbn [List.concat] in Hy. rewrite map_app, in_app_iff in Hy. destruct Hy as [Hy|Hy].
      - exists e'. split; [now left|]. apply in_map_iff in Hy. destruct Hy as (row' & <- & Hr'). rewrite Forall_forall in K1. now apply K1.
      - destruct (IH Hy) as (e2 & I & B). exists e2. split; [now right|exact B]. }
    destruct Ho as (e' & He & B'). apply N1. apply in_map_iff. exists e'. split; [nia|exact He].
  Qed.
End Buffy.

Section Run.
  Variables (float unit : string -> option Q) (is_pmt_name : string -> bool) (pmt_db sipm_db : list nat).
  Notation good_sim := (good_sim float unit pmt_db sipm_db is_pmt_name). Notation periods := (periods float unit).
  Notation run := (buffy_run float unit is_pmt_name pmt_db sipm_db).

  Lemma time_checked mus b : whole mus (cf_max b) -> check_max_time mus (cf_max b) (cf_buffer b) = Ok (longest b).
  Proof using.
    intros (n & E). unfold check_max_time, longest. assert (Ef : Qeqb (cf_max b / mus) (inject_Z (Qfloor (cf_max b / mus))) = true).
    { destruct (Qeqb_spec (cf_max b / mus) (inject_Z (Qfloor (cf_max b / mus)))) as [|N]; [reflexivity|]. exfalso. apply N. rewrite E at 2. now rewrite Qfloor_Z. }
    rewrite Ef. cbn [negb]. destruct (Qltb_spec (cf_max b) (cf_buffer b)) as [L|L]; destruct (Qle_bool (cf_buffer b) (cf_max b)) eqn:El; try reflexivity.
    - apply Qle_bool_iff in El. lra.
    - assert (Qle_bool (cf_buffer b) (cf_max b) = true) by now apply Qle_bool_iff. congruence.
  Qed.
  Lemma widths_found files pw sw : periods files pw sw -> pmt_and_sipm_bin_width_safe float unit (map (fun f => option_map (pair false) (nf_conf f)) files) = Ok (pw, sw).
  Proof using.
    intros (without & g & conf & more & -> & Hn & Ec & R & P & S & W). rewrite map_app. cbn [map]. apply C89_files; [| |discriminate].
    - intros x Hx. apply in_map_iff in Hx. destruct Hx as (u & <- & Hu). rewrite (Hn u Hu). reflexivity.
    - rewrite Ec. cbn [option_map widths_of_file]. now apply C89_periods.
  Qed.
  Lemma files_read files confs : Forall2 good_sim files confs -> exists parts, over_files (sensors_of_nfile float unit is_pmt_name pmt_db) files = (List.concat parts, None) /\
    Forall2 (fun fc part => Forall2 (of_event float unit pmt_db (snd fc) (fst fc)) (nf_events (fst fc)) part) (combine files confs) parts.
  Proof using.
    induction 1 as [|f conf files confs G F IH]; [exists []; split; [reflexivity|constructor]|]. destruct (file_sensors _ _ _ _ _ _ _ G) as (part & E & Fp). destruct IH as (parts & E' & F').
    exists (part :: parts). cbn [over_files combine List.concat]. rewrite E, E'. split; [reflexivity|]. now constructor.
  Qed.
  (** the events of the files, with their files *)
  Lemma listed files confs parts : Forall2 good_sim files confs -> Forall2 (fun fc part => Forall2 (of_event float unit pmt_db (snd fc) (fst fc)) (nf_events (fst fc)) part) (combine files confs) parts ->
    Forall2 (fun it (x : nfile * list conf_row * Z) => let '(f, conf, ev) := x in good_sim f conf /\ of_event float unit pmt_db conf f ev it) (List.concat parts) (flat_map (fun fc => map (pair fc) (nf_events (fst fc))) (combine files confs)).
  Proof using.
    intros G. revert parts. induction G as [|f conf files confs G Gs IH]; intros parts F; inversion F as [|? part ? parts' Fp F']; subst; [constructor|]. cbn [combine flat_map List.concat]. apply Forall2_app; [|now apply IH]. cbn [fst snd] in *.
    clear -G Fp. induction Fp as [|ev it l part H Fp IH]; [constructor|]. cbn [map]. constructor; [now split|exact IH].
  Qed.
  Lemma by_file rate files confs evs : Forall2 good_sim files confs -> Forall2 (fun (x : nfile * list conf_row * Z) e => event_in float unit pmt_db rate (fst (fst x)) (snd x) e) (flat_map (fun fc => map (pair fc) (nf_events (fst fc))) (combine files confs)) evs ->
    exists parts, evs = List.concat parts /\ Forall2 (fun f part => Forall2 (event_in float unit pmt_db rate f) (nf_events f) part) files parts.
  Proof using.
    intros G. revert evs. induction G as [|f conf files confs G Gs IH]; intros evs F; [inversion F; subst; exists []; split; [reflexivity|constructor]|]. cbn [combine flat_map] in F. apply Forall2_app_inv_l in F. destruct F as (part & rest & F1 & F2 & ->).
    destruct (IH rest F2) as (parts & -> & F'). exists (part :: parts). split; [reflexivity|]. constructor; [|exact F']. cbn [fst] in F1. clear -F1. revert part F1. induction (nf_events f) as [|ev l IH]; intros part F; inversion F; subst; constructor; auto.
  Qed.

  Variables (rate rate0 : Q) (draw : nat -> Q).
  Hypothesis Hr : ReadMc.effective_rate rate rate0.
  Hypothesis Hd : forall n, (0 <= draw n /\ draw n < 1)%Q.
  Hypothesis Sp : StronglySorted lt pmt_db.
  Hypothesis Ss : StronglySorted lt sipm_db.

  (** all the events of the files, in order: the rows of their triggers, the filters and the counts *)
  Theorem C114_buffy mus b files pw sw r k : whole mus (cf_max b) -> periods files pw sw -> (forall f, In f files -> exists conf, good_sim f conf) ->
    let c := readout b (longest b) pw sw in good_cfg c r k ->
    exists o evs rowss parts, run mus b rate draw files = Ok (Some o) /\
      evs = List.concat parts /\ Forall2 (fun f part => Forall2 (event_in float unit pmt_db rate0 f) (nf_events f) part) files parts /\
      Forall2 (rows_of pmt_db sipm_db c) evs rowss /\ bt_rows o = List.concat rowss /\
      Forall2 (flagged sim_evt detected) evs (bt_detected o) /\
      (exists seen, ReadSpec.kept (fun x => detected (fst x)) (combine evs rowss) seen /\ Forall2 (flagged (fun x => sim_evt (fst x)) (fun x => snd x <> [])) seen (bt_signal o) /\ bt_resp o = len seen) /\
      (exists written, ReadSpec.kept (fun x => snd x <> []) (combine evs rowss) written /\ bt_numbers o = map (fun x => sim_evt (fst x)) written) /\
      bt_in o = len evs /\ (NoDup (flat_map nf_events files) -> NoDup (map br_event (bt_rows o))) /\ Forall (fun row => br_nexus row = (br_event row / Qceiling (max_time c / buffer_len c))%Z) (bt_rows o).
  Proof using Hr Hd Sp Ss.
    intros Hw Hp Hg c Gc. assert (Gs : exists confs, Forall2 good_sim files confs).
    { clear Hp. induction files as [|f files IH]; [exists []; constructor|]. destruct (Hg f (or_introl eq_refl)) as (conf & G). destruct IH as (confs & F); [intros; apply Hg; now right|]. exists (conf :: confs). now constructor. }
    destruct Gs as (confs & Gs). destruct (files_read files confs Gs) as (parts0 & Rd & Fp). pose proof (listed files confs parts0 Gs Fp) as Li.
    destruct (run_grows float unit is_pmt_name pmt_db sipm_db c r k Gc Sp Ss rate rate0 draw Hr Hd (List.concat parts0) nothing_read _ Li) as (o & evs & rowss & A0 & A1 & A2 & A3 & (dets & A4 & A5) & (seen & sigs & A6 & A7 & A8 & A9) & (written & A10 & A11) & A12).
    destruct (by_file rate0 files confs evs Gs A1) as (parts & Ep & Fe). cbn [nothing_read bt_detected bt_signal bt_rows bt_numbers bt_in bt_resp app Nat.add] in *.
    assert (A2l : Forall2 (rows_of pmt_db sipm_db c) evs rowss) by (clear -A2; induction A2 as [|? ? ? ? [H _] F IH]; constructor; assumption). assert (A2r : Forall2 (in_range c) evs rowss) by (clear -A2; induction A2 as [|? ? ? ? [_ H] F IH]; constructor; assumption).
    exists o, evs, rowss, parts. split; [unfold buffy_run; rewrite (time_checked _ _ Hw); cbn [rbind]; rewrite (widths_found _ _ _ Hp), Rd; fold c; rewrite A0; reflexivity|]. do 4 (split; [assumption|]). split; [now rewrite A4|].
    split; [exists seen; rewrite A7; now repeat split|]. split; [exists written; now split|]. split; [exact A12|]. split.
    - intros Nd. rewrite A3. apply (numbers_differ c r k Gc evs rowss A2r). replace (map sim_evt evs) with (flat_map nf_events files); [exact Nd|]. rewrite Ep. clear -Fe. induction Fe as [|f part files parts F Fe IH]; [reflexivity|]. cbn [flat_map List.concat]. rewrite map_app, <- IH. f_equal.
      clear -F. induction F as [|ev e l part (<- & _) F IH]; [reflexivity|]. cbn [map]. now rewrite <- IH.
    - rewrite A3. assert (M : (0 < max_subevt c)%Z) by (pose proof (max_subevt_pos c k (gc_pw _ _ _ Gc) (gc_k _ _ _ Gc) (gc_len _ _ _ Gc) (gc_max _ _ _ Gc)); lia).
      clear -A2r M. induction A2r as [|e rows evs rowss [H _] F IH]; [constructor|]. cbn [List.concat]. apply Forall_app. split; [|exact IH]. eapply Forall_impl; [|exact H]. intros row [E B]. fold (max_subevt c). rewrite E. apply Z.div_unique with (br_event row - sim_evt e * max_subevt c)%Z; lia.
  Qed.

  (** a file without configuration ends the run, although the search for the periods goes on after such a file *)
  Theorem C114_no_configuration mus b before f after pw sw r k : whole mus (cf_max b) -> periods (before ++ f :: after) pw sw -> (forall f, In f before -> exists conf, good_sim f conf) ->
    good_cfg (readout b (longest b) pw sw) r k -> nf_conf f = None -> run mus b rate draw (before ++ f :: after) = Err NoSuchNodeError.
  Proof using Hr Hd Sp Ss.
    intros Hw Hp Hg Gc En. assert (Gs : exists confs, Forall2 good_sim before confs).
    { clear Hp. induction before as [|g before IH]; [exists []; constructor|]. destruct (Hg g (or_introl eq_refl)) as (conf & G). destruct IH as (confs & F); [intros; apply Hg; now right|]. exists (conf :: confs). now constructor. }
    destruct Gs as (confs & Gs). destruct (files_read before confs Gs) as (parts0 & Rd & Fp). pose proof (listed before confs parts0 Gs Fp) as Li.
    destruct (run_grows float unit is_pmt_name pmt_db sipm_db _ r k Gc Sp Ss rate rate0 draw Hr Hd (List.concat parts0) nothing_read _ Li) as (o & evs & rowss & A0 & _).
    unfold buffy_run. rewrite (time_checked _ _ Hw). cbn [rbind]. rewrite (widths_found _ _ _ Hp).
    assert (E : over_files (sensors_of_nfile float unit is_pmt_name pmt_db) (before ++ f :: after) = (List.concat parts0, Some NoSuchNodeError)).
    { clear -Rd En. revert Rd. generalize (List.concat parts0). clear parts0. intros l0 Rd. enough (G : forall l, over_files (sensors_of_nfile float unit is_pmt_name pmt_db) before = (l, None) -> over_files (sensors_of_nfile float unit is_pmt_name pmt_db) (before ++ f :: after) = (l, Some NoSuchNodeError)) by (now apply G).
      clear Rd l0. induction before as [|g before IH]; intros l E; cbn [over_files app] in *; [injection E as <-; unfold sensors_of_nfile at 1; now rewrite En|]. destruct (sensors_of_nfile float unit is_pmt_name pmt_db g) as [l1 [x|]]; [discriminate|].
      destruct (over_files (sensors_of_nfile float unit is_pmt_name pmt_db) before) as [l2 e2]. injection E as <- ->. now rewrite (IH l2 eq_refl). }
    rewrite E, A0. reflexivity.
  Qed.
  (** with no configuration in any file there is nothing to do, and no output file *)
  Theorem C114_nothing_to_do mus b files : whole mus (cf_max b) -> (forall f, In f files -> nf_conf f = None) -> run mus b rate draw files = Ok None.
  Proof using.
    intros Hw Hn. unfold buffy_run. rewrite (time_checked _ _ Hw). cbn [rbind]. replace (pmt_and_sipm_bin_width_safe _ _ _) with (@Err (Q * Q) NoSuchNodeError); [reflexivity|]. symmetry.
    induction files as [|f files IH]; [reflexivity|]. cbn [map pmt_and_sipm_bin_width_safe]. rewrite (Hn f) by now left. cbn [option_map widths_of_file]. unfold NoSuchNodeError at 1. apply IH. intros; apply Hn; now right.
  Qed.
  Theorem C114_fractional_time mus b files : ~ whole mus (cf_max b) -> run mus b rate draw files = Err ValueError.
  Proof using.
    intros Hw. unfold buffy_run, check_max_time. destruct (Qeqb_spec (cf_max b / mus) (inject_Z (Qfloor (cf_max b / mus)))) as [E|N]; [|reflexivity]. exfalso. apply Hw. now exists (Qfloor (cf_max b / mus)).
  Qed.
End Run.
Print Assumptions C114_buffy.
Print Assumptions C114_no_configuration.
Print Assumptions C114_nothing_to_do.
Print Assumptions C114_fractional_time.

(** the file has one event for each row; one without rows cannot be read *)
Theorem C114_read run o name : wf_from_files (fun _ => buffy_file run o) [name] = match bt_rows o with [] => ([], Some IndexError) | rows => (map (as_event run) rows, None) end.
Proof.
  unfold wf_from_files, wf_from_file, buffy_file. cbn [h_events h_run h_pmt h_sipm h_trg h_chn]. destruct (bt_rows o) as [|x rows]; [reflexivity|]. set (l := x :: rows). change (map (fun _ => run) l) with (run :: map (fun _ : brow => run) rows). cbv iota.
  replace (all_equal _) with true; [|cbn [all_equal app known_length]; rewrite !map_length; now rewrite !Nat.eqb_refl]. rewrite app_nil_r. f_equal. clearbody l. clear. induction l as [|y l IH]; [reflexivity|]. cbn [map zip5 next_of]. now rewrite IH.
Qed.
Print Assumptions C114_read.

(** three events: the first with two triggers, the second without light in the SiPMs, the third below the threshold *)
Definition bfy_resp (ev id bin : Z) (q : Q) : sresp := {| r_event := ev; r_sensor := id; r_bin := bin; r_charge := q |}.
Definition bfy_file : nfile :=
  {| nf_conf := Some ex_conf;
     nf_resp := [bfy_resp 7 0 12 10; bfy_resp 7 2 12 (7 # 2); bfy_resp 7 0 60 8; bfy_resp 7 1001 1 4; bfy_resp 8 2 3 9; bfy_resp 9 0 5 2; bfy_resp 9 1000 0 6];
     nf_pos := [(0, "PmtR11410"); (2, "PmtR11410"); (1000, "SiPM"); (1001, "SiPM")]%string%Z; nf_events := [7; 8; 9]%Z |}.
Definition bfy_conf : bconf := {| cf_buffer := 3000; cf_max := 10000; cf_pre := 1000; cf_thr := 5 |}.
Definition bfy_name (s : string) : bool := String.eqb s "PmtR11410".
Definition bfy_run := buffy_run ex_float ex_unit bfy_name [0; 2] [N.to_nat 1000; N.to_nat 1001] 1000 bfy_conf (1 # 100000) (fun _ => 0%Q).
Example C114_hypotheses : ReadMc.effective_rate (1 # 100000) (1 # 100000) /\ StronglySorted lt [0; 2] /\ StronglySorted lt [N.to_nat 1000; N.to_nat 1001] /\ whole 1000 (cf_max bfy_conf) /\ NoDup (nf_events bfy_file) /\
  periods ex_float ex_unit [bfy_file] (100 * 1) (1 * 1000) /\ good_sim ex_float ex_unit [0; 2] [N.to_nat 1000; N.to_nat 1001] bfy_name bfy_file ex_conf /\ good_cfg (readout bfy_conf (longest bfy_conf) (100 * 1) (1 * 1000)) 10 30.
Proof.
  destruct C89_ex as (R & P & S & _).
  assert (Dp : declared ex_float ex_unit ex_conf "PmtR11410" (100 * 1)).
  { exists [("geometry", "NEXT100"); ("SiPM_binning", "1 microsecond")]%string, "100 nanosecond"%string, [("SiPM_binning", "100 nanosecond")]%string. split; [reflexivity|]. split; [cbn; intuition discriminate|]. exists "100"%string, "nanosecond"%string, 100%Q, 1%Q. repeat split; try discriminate; cbn; intros c H; repeat destruct H as [<-|H]; try reflexivity; contradiction. }
  assert (Ds : declared ex_float ex_unit ex_conf "SiPM" (1 * 1000)).
  { exists [("geometry", "NEXT100")]%string, "1 microsecond"%string, [("PmtR11410_binning", "100 nanosecond"); ("SiPM_binning", "100 nanosecond")]%string. split; [reflexivity|]. split; [cbn; intuition discriminate|]. exists "1"%string, "microsecond"%string, 1%Q, 1000%Q. repeat split; try discriminate; cbn; intros c H; repeat destruct H as [<-|H]; try reflexivity; contradiction. }
  split; [right; split; [discriminate|reflexivity]|]. split; [repeat constructor|]. split; [apply SSorted_cons; [apply SSorted_cons; [apply SSorted_nil|apply Forall_nil]|apply Forall_cons; [lia|apply Forall_nil]]|]. split; [exists 10%Z; reflexivity|]. split; [repeat constructor; cbn; intuition discriminate|]. split; [|split].
  - exists [], bfy_file, ex_conf, []. split; [reflexivity|]. split; [easy|]. split; [reflexivity|]. split; [exact R|]. split; [exact P|]. split; [exact S|]. intros name w (l1 & v & l2 & E & _ & (x & u & q & k & Ev & _ & _ & Fx & Fu & ->)) _.
    assert (V : (0 < q)%Q /\ (0 < k)%Q). { split; [clear -Fx|clear -Fu].
      - unfold ex_float in Fx. destruct (String.eqb x "100"); [injection Fx as <-; reflexivity|]. destruct (String.eqb x "1"); [injection Fx as <-; reflexivity|discriminate].
      - unfold ex_unit in Fu. destruct (String.eqb u "nanosecond"); [injection Fu as <-; reflexivity|]. destruct (String.eqb u "microsecond"); [injection Fu as <-; reflexivity|discriminate]. }
    destruct V. nra.
  - split; [reflexivity|exact R|repeat constructor; cbn; intuition discriminate| | | | |].
    + intros id name H En. cbn in H. destruct H as [H|[H|[H|[H|[]]]]]; injection H as <- <-; try discriminate; [exists 0; cbn; tauto|exists 2; cbn; tauto].
    + intros r Hr. assert (X : In (r_sensor r, "PmtR11410"%string) (nf_pos bfy_file) \/ In (r_sensor r, "SiPM"%string) (nf_pos bfy_file)) by (cbn in Hr; repeat (destruct Hr as [<-|Hr]; [cbn; tauto|]); easy).
      destruct X as [X|X]; [exists "PmtR11410"%string, (100 * 1)%Q|exists "SiPM"%string, (1 * 1000)%Q]; (split; [exact X|]; split; [assumption|]; split; [first [exact plain_pmt|exact plain_sipm]|]; split; [apply contains_false; reflexivity|reflexivity]).
    + intros r Hr. cbn in Hr. assert (Z0 : exists j, In j [0; 2] /\ 0%Z = Z.of_nat j) by (exists 0; cbn; tauto). assert (Z2 : exists j, In j [0; 2] /\ 2%Z = Z.of_nat j) by (exists 2; cbn; tauto).
      assert (S0 : exists j, In j [N.to_nat 1000; N.to_nat 1001] /\ 1000%Z = Z.of_nat j) by (exists (N.to_nat 1000); split; [now left|now rewrite N_nat_Z]). assert (S1 : exists j, In j [N.to_nat 1000; N.to_nat 1001] /\ 1001%Z = Z.of_nat j) by (exists (N.to_nat 1001); split; [right; now left|now rewrite N_nat_Z]).
      repeat (destruct Hr as [<-|Hr]; [first [left; assumption|right; assumption]|]). easy.
    + intros r Hr. cbn in Hr. repeat (destruct Hr as [<-|Hr]; [split; cbn; [lia|unfold Qle; cbn; lia]|]). easy.
    + intros ev i. apply Qle_lt_trans with (sumF r_charge (nf_resp bfy_file)); [|reflexivity]. rewrite sumF_filter_if. apply sumF_le. intros r Hr. assert (0 <= r_charge r)%Q by (cbn in Hr; repeat (destruct Hr as [<-|Hr]; [unfold Qle; cbn; lia|]); easy). destruct (_ && _)%bool; lra.
  - split; try lia; try reflexivity; apply Qle_bool_iff; reflexivity.
Qed.
(** the tables: numbers, times, the charges that are not zero *)
Definition somewhere (z : list (list Z)) : list (nat * nat * Z) :=
  flat_map (fun jx => flat_map (fun kv => if (snd kv =? 0)%Z then [] else [(fst jx, fst kv, snd kv)]) (combine (seq 0 (len (snd jx))) (snd jx))) (combine (seq 0 (len z)) z).
Example C114_ex : match bfy_run [bfy_file] with
  | Ok (Some o) => bt_detected o = [(7, true); (8, false); (9, true)]%Z /\ bt_signal o = [(7, true); (9, false)]%Z /\ bt_numbers o = [7%Z] /\ bt_in o = 3 /\ bt_resp o = 2 /\
      map (fun r => (br_event r, br_time r, br_nexus r)) (bt_rows o) = [(28, 701200, 7); (29, 706000, 7)]%Z /\ map (fun r => (somewhere (br_pmt r), somewhere (br_sipm r))) (bt_rows o) = [([(0, 12, 10%Z); (1, 12, 3%Z)], [(1, 1, 4%Z)]); ([(0, 10, 8%Z)], [])]
  | _ => False
  end /\ bfy_run [bfy_file; {| nf_conf := None; nf_resp := []; nf_pos := []; nf_events := [] |}] = Err NoSuchNodeError /\ bfy_run [{| nf_conf := None; nf_resp := []; nf_pos := []; nf_events := [] |}; bfy_file] = Err NoSuchNodeError.
Proof. vm_compute. repeat split. Qed.
Print Assumptions C114_hypotheses.
