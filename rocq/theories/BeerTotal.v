(** C100: Beersheba gives a result for every event with positive energies *)
From Verif Require Import Base Arrays PeaksModel PeaksProofs BuffersProofs BuffersEvent WfmProps PmapioProofs DbModel DbProps CorrModel CorrSpec CorrProps CorrMore PsfModel PsfSpec PsfProps PsfSplit PsfPeak DeconvModel DeconvSpec DeconvProps DeconvPeak DeconvClusters.
From Verif Require Import HitsModel HitsSpec HitsProofs HitsProps EsmModel EsmSpec EsmProps BeerModel BeerSpec BeerProofs BeerProps.
From Coq Require Import Qabs.
Local Open Scope Q_scope.

Definition charged (l : list dhit) : Prop := forall h, In h l -> 0 < dQ h.
Lemma total_pos i l : l <> [] -> DeconvSpec.positive 2 l -> (i < 2)%nat -> 0 < DeconvSpec.total i l.
Proof.
  intros NE P Hi. destruct l as [|h l]; [congruence|]. unfold DeconvSpec.total. rewrite sumF_cons. assert (0 < nth i (dvars h) 0) by (apply P; [now left|assumption]). assert (0 <= sumF (fun h => nth i (dvars h) 0) l) by (apply sumF_nonneg; intros a Ha; apply Qlt_le_weak, P; [now right|assumption]). lra.
Qed.
Lemma redistributed_good all kept out : DeconvSpec.positive 2 all -> charged all -> (forall h, In h kept -> In h all) -> redistributed 2 all kept out -> DeconvSpec.positive 2 out /\ charged out.
Proof.
  intros P C S [_ F]. assert (R : forall d, In d out -> 0 < dQ d /\ forall i, (i < 2)%nat -> 0 < nth i (dvars d) 0); [|split; [intros d Hd i Hi; now apply R|intros d Hd; now apply R]].
  intros d Hd. destruct (in_right F Hd) as (h & Ih & (_ & _ & _ & _ & Eq & _) & V). split; [rewrite Eq; apply C, S, Ih|]. intros i Hi. rewrite (V i Hi). apply Qmult_lt_0_compat; [apply P; [now apply S|assumption]|].
  assert (NK : kept <> []) by (intros ->; destruct Ih). assert (NA : all <> []) by (intros ->; apply (S h Ih)). assert (T1 := total_pos i all NA P Hi). assert (T2 := total_pos i kept NK (positive_sub 2 all kept S P) Hi). apply Qlt_shift_div_l; lra.
Qed.
Lemma survivors_in' {A} (P : A -> Prop) l m : survivors P l m -> forall a, In a m -> In a l.
Proof. induction 1 as [|b l m P' K IH|b l m P' K IH]; intros a I; [destruct I|destruct I as [->|I]; [now left|right; auto]|right; auto]. Qed.
Lemma peaks_good (R : list dhit -> list dhit -> Prop) df out : DeconvSpec.positive 2 df -> charged df -> (forall hits rows, R hits rows -> exists kept, (forall h, In h kept -> In h hits) /\ redistributed 2 hits kept rows) ->
  peak_by_peak R df out -> DeconvSpec.positive 2 out /\ charged out.
Proof.
  intros P C H B. assert (X : forall d, In d out -> (forall i, (i < 2)%nat -> 0 < nth i (dvars d) 0) /\ 0 < dQ d); [|split; intros d Hd; now apply X].
  intros d Hd. set (k := d_peak d). destruct (H _ _ (B k (filter (fun h => key_eqb k (d_peak h)) df) (filter (fun h => key_eqb k (d_peak h)) out) (proj2 (picks_filter _ _ _ _) eq_refl) (proj2 (picks_filter _ _ _ _) eq_refl))) as (kept & S & R').
  assert (Sub : forall h, In h (filter (fun h => key_eqb k (d_peak h)) df) -> In h df) by (intros h Hh; now apply filter_In in Hh).
  destruct (redistributed_good _ kept _ (positive_sub 2 _ _ Sub P) (fun h Hh => C h (Sub h Hh)) S R') as [G1 G2].
  assert (I : In d (filter (fun h => key_eqb k (d_peak h)) out)) by (apply filter_In; split; [assumption|apply key_eqb_iff, same_refl]). split; [intros i Hi; now apply G1|now apply G2].
Qed.

Section Total.
  Variable deconvolution : list (Q * Q * Q) -> Q -> list (Q * Q * Q).
  Variable round6 : Q -> Q.
  (** images have pixels, and no negative values *)
  Hypothesis images : forall hits z, deconvolution hits z <> [] /\ forall p, In p (deconvolution hits z) -> 0 <= snd p.
  Variables (ct : cut_type) (e_cut : Q) (energy : nat).
  Hypothesis cut : 0 <= e_cut.
  Lemma create_ok z hits : exists l, create_deconvolution_df z (deconvolution hits z) ct e_cut = Ok l /\ forall o, In o l -> 0 < oE o.
  Proof using images cut.
    destruct (images hits z) as [N P]. unfold create_deconvolution_df. destruct ct.
    - eexists. split; [reflexivity|]. intros o Ho. apply in_map_iff in Ho. destruct Ho as ([[x y] e] & <- & Hp). apply filter_In in Hp. destruct Hp as [_ Hp]. apply Qltb_lt in Hp. cbn in *. lra.
    - destruct (deconvolution hits z) as [|p0 l0] eqn:E; [congruence|]. rewrite <- E in *. assert (G := max_greatest (map snd (deconvolution hits z))). destruct (maxQ (map snd (deconvolution hits z))) as [mx|] eqn:M; [|rewrite E in M; cbn in M; destruct (maxQ (map snd l0)); discriminate].
      destruct (Qeqb_spec mx 0) as [Z|NZ]; [exists []; split; [reflexivity|intros o []]|]. eexists. split; [reflexivity|]. intros o Ho. apply in_map_iff in Ho. destruct Ho as ([[x y] e] & <- & Hp). apply filter_In in Hp. destruct Hp as [Ip Hp]. apply Qltb_lt in Hp. cbn [snd oE] in *.
      assert (Pe := P _ Ip). cbn [snd] in Pe. destruct (Qlt_le_dec 0 e) as [|L]; [assumption|]. exfalso. assert (Ze : e == 0) by lra. assert (e / mx == 0) by (rewrite Ze; unfold Qdiv; ring). lra.
  Qed.
  Lemma deconvolve_ok df : charged df -> exists out, apply_deconvolution deconvolution round6 ct e_cut energy df = Ok out.
  Proof using images cut.
    intros C. unfold apply_deconvolution. destruct (rmap_ok (fun k => rbind (deconvolve_peak deconvolution ct e_cut energy (filter (fun h => key_eqb k (d_peak h)) df)) (fun l => Ok (map (fun o => (k, o)) l))) (group_keys (map d_peak df))) as (bs & E & _); [|rewrite E; eexists; reflexivity].
    intros k Hk. set (hits := filter _ df). assert (NE : hits <> []).
    { apply group_keys_in in Hk. apply in_map_iff in Hk. destruct Hk as (h & Eh & Hh). intros N. assert (I : In h hits) by (apply filter_In; split; [assumption|]; rewrite Eh; apply key_eqb_iff, same_refl). rewrite N in I. destruct I. }
    assert (Ch : charged hits) by (intros h Hh; apply filter_In in Hh; now apply C). clearbody hits. unfold deconvolve_peak.
    assert (T : 0 < sumF dQ hits). { destruct hits as [|h l]; [congruence|]. rewrite sumF_cons. assert (0 < dQ h) by (apply Ch; now left). assert (0 <= sumF dQ l) by (apply sumF_nonneg; intros a Ha; apply Qlt_le_weak, Ch; now right). lra. }
    destruct (Qeqb_spec (sumF dQ hits) 0) as [Z|_]; [exfalso; lra|].
    destruct (rmap_ok (fun z => deconvolve_hits deconvolution ct e_cut (sumF dQ hits) (filter (fun h => key_eqb z [dZ h]) hits) (nth 0 z 0)) (group_keys (map (fun h => [dZ h]) hits))) as (sl & Es & Fs).
    { intros z _. unfold deconvolve_hits. destruct (create_ok (nth 0 z 0) (map (fun h => (dX h, dY h, dQ h / sumF dQ hits)) (filter (fun h => key_eqb z [dZ h]) hits))) as (l & El & _). eauto. }
    rewrite Es. cbn [rbind]. assert (P : forall o, In o (concat sl) -> 0 < oE o).
    { intros o Ho. apply in_concat in Ho. destruct Ho as (l & Il & Io). destruct (in_right Fs Il) as (z & _ & Ez). unfold deconvolve_hits in Ez. destruct (create_ok (nth 0 z 0) (map (fun h => (dX h, dY h, dQ h / sumF dQ hits)) (filter (fun h => key_eqb z [dZ h]) hits))) as (l' & El & Pl). rewrite El in Ez. injection Ez as ->. now apply Pl. }
    unfold distribute_energy. destruct (concat sl) as [|o os] eqn:Ec; [eexists; reflexivity|]. rewrite <- Ec in *. assert (To : 0 < sumF oE (concat sl)). { rewrite Ec in *. rewrite sumF_cons. assert (0 < oE o) by (apply P; now left). assert (0 <= sumF oE os) by (apply sumF_nonneg; intros a Ha; apply Qlt_le_weak, P; now right). lra. }
    destruct (Qeqb_spec (sumF oE (concat sl)) 0) as [Z|_]; [exfalso; lra|]. eexists. reflexivity.
  Qed.
End Total.
(** with two distances every event is processed *)
Theorem C100_total nearest deconvolution round6 m dvs method xy c ts hits dx dy : takes_nearest nearest -> usable_map m method xy -> (b_apply_z c = true -> numbers dvs <> []) ->
  (forall b mu, In b m -> kb_mu b = Some mu -> 0 < mu) -> 0 < b_threshold c -> (forall h, In h hits -> 0 <= val (hE h)) ->
  (forall pts z, deconvolution pts z <> [] /\ forall p, In p (deconvolution pts z) -> 0 <= snd p) -> 0 <= b_e_cut c -> b_drop_dist c = [dx; dy] ->
  exists out, beersheba_event nearest deconvolution round6 m dvs method xy c ts hits = Ok out.
Proof.
  intros G U V Mp T En Im Ec Ed. destruct (C80_corrected nearest G m dvs method xy (b_apply_z c) hits U V) as (mid & dv & E & Hv & F). unfold beersheba_event, beersheba_hits. rewrite E. cbn [snd rbind].
  assert (Pm : forall h, In h mid -> 0 <= val (hE h) /\ 0 <= val (hEc h)) by (intros h' Hh; destruct (F2_in_right _ _ _ _ F Hh) as (h & I & C); apply (corrected_energies m dv h h' Mp C); now apply En).
  assert (B := merged_both (b_threshold c) (b_same_peak c) mid T Pm). set (thr := threshold_hits_and_merge_nn _ _ mid) in *. clearbody thr.
  destruct (to_rows_ok thr) with (i := 0%nat) as [df Df]; [intros h Hh; destruct (B h Hh) as (_ & (a & Ea & _) & (b & Eb & _)); split; eexists; eassumption|]. rewrite Df. cbn [rbind]. destruct (to_rows_spec _ _ _ Df) as [Fd _].
  assert (X : forall d, In d df -> (forall i, (i < 2)%nat -> 0 < nth i (dvars d) 0) /\ 0 < dQ d).
  { intros d Hd. destruct (in_right Fd Hd) as (h & Ih & (e & ec & E1 & E2 & _ & _ & _ & _ & Eq & Ev)). destruct (B h Ih) as (Q1 & (a & Ea & Pa) & (b & Eb & Pb)). rewrite E1 in Ea. rewrite E2 in Eb. injection Ea as ->. injection Eb as ->. split; [|rewrite Eq; lra]. intros i Hi. rewrite Ev. destruct i as [|[|i]]; [exact Pa|exact Pb|lia]. }
  assert (P0 : DeconvSpec.positive 2 df) by (intros d Hd; now apply X). assert (C0 : charged df) by (intros d Hd; now apply X).
  destruct (proj1 (C43_event_total 2 df P0) (b_q_cut c)) as [d1 E1]. rewrite E1. cbn [rbind].
  assert (G1 : DeconvSpec.positive 2 d1 /\ charged d1). { eapply peaks_good; [exact P0|exact C0| |exact (C43_event_cut _ _ _ _ E1)]. intros h r (kept & S & R). exists kept. split; [now apply (survivors_in' _ _ _ S)|assumption]. }
  destruct (proj1 (proj2 (C43_event_total 2 d1 (proj1 G1))) dx dy (b_cluster_size c)) as [d2' E2]. rewrite Ed, E2. cbn [rbind].
  assert (G2 : DeconvSpec.positive 2 d2' /\ charged d2'). { eapply peaks_good; [exact (proj1 G1)|exact (proj2 G1)| |exact (C43_event_sensors _ _ _ _ _ _ E2)]. intros h r (kept & S & R). exists kept. split; [now apply (survivors_in' _ _ _ S)|assumption]. }
  destruct d2' as [|d l] eqn:D; [eexists; reflexivity|]. rewrite <- D in *. destruct (deconvolve_ok deconvolution round6 Im (b_cut_type c) (b_e_cut c) (b_energy c) Ec d2' (proj2 G2)) as [o ->]. eexists. reflexivity.
Qed.
Print Assumptions C100_total.

(** two peaks; the second one is lost: it has a sensor only. A deconvolution that gives back its input *)
Definition conf_ex : beer_conf := {| b_threshold := 5; b_same_peak := true; b_apply_z := true; b_q_cut := 7; b_drop_dist := [20; 20]; b_cluster_size := None; b_cut_type := CutAbs; b_e_cut := 0; b_energy := 1 |}.
Definition bh (p : nat) (x z q e : Q) : hit := {| hmeta := 7; npeak := p; hX := x; hY := 0; hZ := z; hQ := q; hE := Some e; hEc := None |}.
Definition event_ex : list hit := [bh 0 5 10 20 100; bh 0 15 10 10 50; bh 0 25 10 6 60; bh 1 90 30 30 400].
Definition deco_ex (pts : list (Q * Q * Q)) (z : Q) : list (Q * Q * Q) := match pts with [] => [(0, 0, 1)] | _ => pts end.
Definition floor6 (x : Q) : Q := inject_Z (Qfloor (x * 1000000)) / 1000000.
(** the same without threshold, which is quicker to compute *)
Definition conf_0 : beer_conf := {| b_threshold := 0; b_same_peak := true; b_apply_z := true; b_q_cut := 7; b_drop_dist := [20; 20]; b_cluster_size := None; b_cut_type := CutAbs; b_e_cut := 0; b_energy := 1 |}.
Example C100_ex : rbind (beersheba_event first_nearest deco_ex floor6 map_ex [Some 2] Maximum None conf_0 3000 event_ex) (fun o =>
  Ok (bo_passed o, map (fun r => (peak_of r, oX (snd (fst r)), Qred (oZ (snd (fst r))), Qred (energy_of_row r), Qred (snd r))) (bo_deco o), map (fun h => (hX h, Qred (hQ h))) (bo_hits o)))
  = Ok (true, [([0], 5, 20, 7 # 5000, 3); ([0], 15, 20, 7 # 10000, 3)], [(5, 20); (15, 10); (25, 6); (90, 30)]).
Proof. vm_compute. reflexivity. Qed.
(** without the condition that no peak is lost the energy is not kept: the single sensor of the second peak is dropped with its energy *)
Lemma lost_check : match beersheba_event first_nearest deco_ex floor6 map_ex [Some 2] Maximum None conf_0 3000 event_ex with
  | Ok out => bo_passed out && Qltb 0 (sumF energy_of_row (bo_deco out)) && Qltb (sumF energy_of_row (bo_deco out) * 3) (HitsSpec.total hEc (bo_hits out))
  | Err _ => false
  end = true.
Proof. vm_compute. reflexivity. Qed.
Theorem C100_lost_refuted : exists out, beersheba_event first_nearest deco_ex floor6 map_ex [Some 2] Maximum None conf_0 3000 event_ex = Ok out /\ bo_passed out = true /\
  0 < sumF energy_of_row (bo_deco out) /\ sumF energy_of_row (bo_deco out) * 3 < HitsSpec.total hEc (bo_hits out).
Proof.
  assert (L := lost_check). destruct (beersheba_event _ _ _ _ _ _ _ _ _ _) as [out|]; [|discriminate]. exists out. split; [reflexivity|]. apply andb_true_iff in L. destruct L as [L L3]. apply andb_true_iff in L. destruct L as [L1 L2]. split; [assumption|]. split; now apply Qltb_lt.
Qed.
Print Assumptions C100_lost_refuted.
(** the example meets the hypotheses of the theorems *)
Lemma C100_hypotheses : takes_nearest first_nearest /\ usable_map map_ex Maximum None /\ numbers [Some 2] <> [] /\ (forall b mu, In b map_ex -> kb_mu b = Some mu -> 0 < mu) /\
  0 < b_threshold conf_ex /\ (forall h, In h event_ex -> 0 <= val (hE h)) /\ (forall h, In h event_ex -> exists g, In g event_ex /\ b_threshold conf_ex <= hQ g /\ eligible (b_same_peak conf_ex) h g) /\
  (forall pts z, (forall p, In p pts -> 0 <= snd p) -> deco_ex pts z <> [] /\ forall p, In p (deco_ex pts z) -> 0 <= snd p) /\ sensible (b_drop_dist conf_ex) (b_cluster_size conf_ex) /\
  (forall x, Qabs (floor6 x - x) <= 1 # 1000000).
Proof.
  destruct C80_hypotheses as (H1 & H2 & _ & H4 & _). split; [exact H1|]. split; [exact H2|]. split; [discriminate|]. split; [exact H4|]. split; [reflexivity|]. split; [|split; [|split; [|split; [exact I|]]]].
  - intros h [<-|[<-|[<-|[<-|[]]]]]; cbn; lra.
  - intros h Hh. assert (D : npeak h = 0%nat \/ npeak h = 1%nat) by (destruct Hh as [<-|[<-|[<-|[<-|[]]]]]; cbn; auto). destruct D as [D|D].
    + exists (bh 0 5 10 20 100). split; [now left|]. split; [cbn; lra|]. intros _. now rewrite D.
    + exists (bh 1 90 30 30 400). split; [cbn; auto 6|]. split; [cbn; lra|]. intros _. now rewrite D.
  - intros pts z P. unfold deco_ex. destruct pts as [|p l]; [split; [discriminate|]; intros p [<-|[]]; cbn; lra|]. split; [discriminate|exact P].
  - intros x. unfold floor6. assert (A := Qfloor_le (x * 1000000)). assert (B := Qlt_floor (x * 1000000)). rewrite inject_Z_plus in B. change (inject_Z 1) with 1 in B. set (f := inject_Z (Qfloor (x * 1000000))) in *. clearbody f.
    assert (E : f / 1000000 == f * (1 # 1000000)) by (unfold Qdiv; reflexivity). rewrite E. apply Qabs_Qle_condition. split; lra.
Qed.
Print Assumptions C100_hypotheses.
