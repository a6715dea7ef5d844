(** C107: the tables of a run of sophronia *)
From Coq Require Import NArith.
From Verif Require Import Base PeaksModel PeaksSpec BuffersModel ReadModel PmapioModel PmapioSpec FiltersModel FiltersSpec FiltersProps XyModel HitsModel HitsSpec CorrModel CorrSpec EsmModel EsmSpec SophModel SophSpec SophPeak SophProps SophEnergy CorrMore SoeModel SoeSpec SoeProps.
From Verif Require Import KrModel KrSpec KrProps CalibModel IreneModel IreneSpec IreneProofs IrunModel IrunSpec IrunProps PreadModel PreadSpec PreadProps DorModel DorSpec DorProps SrunModel SrunSpec.
Local Open Scope nat_scope.

Lemma only_picked {A} (P : A -> Prop) l flags i out : Forall2 (fun a b => b = true <-> P a) l flags -> picked i flags l out -> only (fun ip => P (snd ip)) (combine (seq i (length l)) l) out /\ only P l (map snd out).
Proof.
  intros F. revert i out. induction F as [|a b l fs H F IH]; intros i out K; inversion K; subst; cbn [length seq combine map]; [split; constructor| |].
  - match goal with K' : picked (S i) _ _ _ |- _ => destruct (IH _ _ K') as [A1 A2] end. split; constructor; try assumption; cbn [snd]; now apply H.
  - match goal with K' : picked (S i) _ _ _ |- _ => destruct (IH _ _ K') as [A1 A2] end. split; constructor; try assumption; cbn [snd]; intros K'; apply H in K'; discriminate.
Qed.
Lemma only_len {A} (P : A -> Prop) l out : only P l out -> length out <= length l.
Proof. induction 1; cbn; lia. Qed.
Lemma positions_end qthr : global_ends (positions qthr).
Proof.
  intros ps qs. unfold positions. destruct (combine ps qs) as [|s ss] eqn:E; [exists None; split; [reflexivity|discriminate]|]. rewrite <- E.
  destruct (bary_cases qthr (combine ps qs)) as [(e & -> & -> & _)|(_ & _ & ->)]; [rewrite E; discriminate|exists None; split; [reflexivity|discriminate]|]. eexists. split; [reflexivity|discriminate].
Qed.
Lemma list_eq_nil {A} (l : list A) : l = [] \/ l <> []. Proof. destruct l; [now left|right; discriminate]. Qed.
Lemma position_weighted qthr ps qs xy : position_found (positions qthr) ps qs xy -> weighted_position qthr ps qs xy.
Proof.
  unfold position_found, positions, weighted_position. generalize (combine ps qs). intros ss H. set (g := filter (fun s => Qle_bool qthr (charge s)) ss). exists g. split; [apply only_filter; intros a _; apply Qle_bool_iff|]. cbv zeta.
  destruct (list_eq_nil ss) as [-> |Hn]; [cbn in *; destruct H as [(more & H)|(_ & ->)]; [discriminate|reflexivity]|].
  pose proof (bary_cases qthr ss Hn) as B. cbv zeta in B. fold g in B. clearbody g. destruct B as [(e & Eb & Er & Z)|(Z1 & Z2 & Eb)].
  - rewrite Eb, Er in H. assert (X : Qeqb (sumF snd ss) 0 || Qeqb (sumF snd g) 0 = true). { apply orb_true_iff. destruct Z as [Z|Z]; [left|right]; now apply Qeqb_eq. }
    rewrite X. destruct H as [(more & H)|(_ & ->)]; [discriminate|reflexivity].
  - rewrite Eb in H. destruct (Qeqb_spec (sumF snd ss) 0) as [Y|_]; [now destruct Z1|]. destruct (Qeqb_spec (sumF snd g) 0) as [Y|_]; [now destruct Z2|]. cbn [orb]. destruct H as [(more & H)|(H & _)]; [|discriminate]. injection H as <- _. cbn [fst snd cx cy]. split; reflexivity.
Qed.

Section Sophronia.
  Variable nearest : list (Q * Q * Q) -> Q * Q * Q -> nat.
  Hypothesis griddata : takes_nearest nearest.
  Variables (xys : list (Q * Q)) (v : Q) (noise : list nat -> list Q -> Z -> list Q) (sw : Q -> Z) (ct : charge_type) (sqrt : Q -> Q) (atan : Q -> Q -> Q) (qthr : Q).
  Hypothesis noise_len : forall ids qs w, length ids = length qs -> length (noise ids qs w) = length qs.
  Variables (c : limits) (md : rebin_model) (thr : Q) (same_peak : bool) (corr : option corrections).
  Hypothesis thr_pos : (0 < thr)%Q.
  Hypothesis corr_ok : usable_corrections corr.
  Notation ch := (charge_of ct noise sw).
  Notation charges := (charge_single noise sw ct).

  (** the S2s are as the constructors leave them and their SiPMs are in the database *)
  Definition readable (pm : pmap) : Prop :=
    (N.of_nat (length (s2s pm)) <= 65536)%N /\ forall p, In p (s2s pm) -> consistent p /\ Forall (fun i => i < length xys) (r_ids (p_sipms p)).

  Lemma readable_fits pm p : readable pm -> In p (s2s pm) -> fits xys noise sw ct p.
  Proof using noise_len.
    intros (_ & R) Hp. destruct (R p Hp) as (C & D). split; [exact D|]. destruct C as (_ & _ & _ & _ & _ & _ & L & _). unfold charge_single, sum_over_times. destruct ct; [now rewrite map_length|]. rewrite noise_len; rewrite map_length; now rewrite ?L.
  Qed.

  Lemma hits_of s it : mk_selector c = Ok s -> (1 <= fst (s2_n c))%Q -> (1 <= fst (s2_nsipm c))%Q -> readable (pi_pmap it) -> passed (pmap_filter s (pi_pmap it)) = true ->
    exists o, sophronia_hits nearest xys v noise sw ct (positions qthr) s (fst (args_of md)) (snd (args_of md)) thr same_peak corr (pi_pmap it) (pi_event it) (pi_time it) = Ok (Some o) /\
      event_hits xys v ch qthr c md thr same_peak corr it o.
  Proof using griddata noise_len thr_pos corr_ok.
    intros Hs N1 N2 R P. destruct (C36_selection c s (pi_pmap it) Hs) as (F1 & F2 & A). assert (A' := proj1 A P). destruct A' as (n1 & n2 & H1 & H2 & _ & B2).
    pose proof (picked_selected_from 0 (s1_peaks (pmap_filter s (pi_pmap it))) (s1s (pi_pmap it)) (eq_sym (Forall2_len _ _ _ F1))) as K1.
    pose proof (picked_selected_from 0 (s2_peaks (pmap_filter s (pi_pmap it))) (s2s (pi_pmap it)) (eq_sym (Forall2_len _ _ _ F2))) as K2.
    match type of K1 with picked _ _ _ ?o => set (o1 := o) in * end. match type of K2 with picked _ _ _ ?o => set (chosen := o) in * end. clearbody o1 chosen.
    destruct (only_picked _ _ _ _ _ F1 K1) as (_ & O1), (only_picked _ _ _ _ _ F2 K2) as (O2 & O2').
    assert (Hne : chosen <> []). { intros ->. apply (only_how_many _ _ _ _ O2') in H2. subst n2. unfold between in B2. cbn [length map] in B2. assert (qn 0 == 0)%Q by reflexivity. lra. }
    assert (Us : forall i p, In (i, p) chosen -> usable xys p).
    { intros i p Hi. apply (in_map snd) in Hi. destruct (only_in _ _ _ _ O2' Hi) as (Hp & (_ & _ & _ & (B & _))). cbn [snd] in *. destruct (proj2 R p Hp) as (C & D). split; [exact C|]. split; [|exact D].
      intros En. rewrite En in B. cbn [length] in B. assert (qn 0 == 0)%Q by reflexivity. lra. }
    destruct (C103_event nearest griddata xys v noise sw ct (positions qthr) noise_len (positions_end qthr) c s md thr same_peak corr Hs thr_pos (pi_pmap it) (pi_event it) (pi_time it) chosen P K2 Hne (proj1 R) corr_ok Us)
      as (t0 & made & rebinned & T & Rb & (groups & Em & G) & X).
    cbv zeta in X. destruct X as (X1 & X2).
    assert (T' : match map snd o1 with p :: _ => t0 = time_at_max_energy p | [] => exists i p rest ts, chosen = (i, p) :: rest /\ p_times p = t0 :: ts end).
    { destruct T as [(i & p & rest & T & ->)|(T & i & p & rest & ts & T' & E)].
      - rewrite (picked_fun _ _ _ _ _ K1 T). reflexivity.
      - rewrite (picked_fun _ _ _ _ _ K1 T). cbn [map]. exists i, p, rest, ts. split; [exact (picked_fun _ _ _ _ _ K2 T')|exact E]. }
    assert (Rb' : Forall2 (fun ip p' => rebin_peak (snd ip) md = Ok p') chosen rebinned). { clear -Rb. induction Rb as [|[i p] p' l l' H F IH]; constructor; assumption. }
    assert (G' : Forall2 (fun ip hs => peak_hits xys v ch qthr thr t0 (fst ip) (snd ip) hs) (combine (map fst chosen) rebinned) groups).
    { eapply F2_impl; [|exact G]. intros [i p] hs (Q1 & (xy & ps & Q2 & Q3 & Q4) & Q5). cbn [fst snd] in *. split; [exact Q1|]. split; [|exact Q5]. exists xy, ps. split; [exact Q2|]. split; [now apply position_weighted|exact Q4]. }
    assert (D : (exists p, In p rebinned /\ lights_up ch thr p) \/ forall p, In p rebinned -> ~ lights_up ch thr p).
    { clear. induction rebinned as [|p l IH]; [right; easy|]. destruct IH as [(q & Hq & L)|N]; [left; exists q; split; [now right|exact L]|].
      assert (Lp : lights_up ch thr p \/ ~ lights_up ch thr p).
      { unfold lights_up. induction (length (p_times p)) as [|n IHn]; [right; intros (k & Hk & _); lia|]. destruct IHn as [(k & Hk & Hl)|Nn]; [left; exists k; split; [lia|exact Hl]|]. destruct (lit ch thr p n) as [|s l0] eqn:E; [right|left; exists n; split; [lia|rewrite E; discriminate]].
        intros (k & Hk & Hl). destruct (Nat.eq_dec k n) as [-> |Hkn]; [now rewrite E in Hl|]. apply Nn. exists k. split; [lia|exact Hl]. }
      destruct Lp as [L|L]; [left; exists p; split; [now left|exact L]|]. right. intros q [<-|Hq]; [exact L|now apply N]. }
    destruct D as [D|D].
    - destruct (X2 D) as (merged & out & E & M1 & M2 & M3 & M4). exists (Some out). split; [exact E|]. exists (map snd o1), chosen, t0, rebinned, groups. subst made. do 6 (split; [assumption|]). exists merged. split; [exact M1|]. split; [exact M2|]. split; [exact M3|exact M4].
    - exists None. split; [exact (X1 D)|]. exists (map snd o1), chosen, t0, rebinned, groups. repeat (split; [assumption|]). exact D.
  Qed.

  Definition hit_rows (it : pitem) (o : option (list hit)) : list (Z * hit) := match o with Some l => map (pair (pi_event it)) l | None => [] end.
  Definition has_hits (o : option (list hit)) : bool := match o with Some _ => true | None => false end.

  (** what the tables and counters of a run hold, for the events [items] of its input: [kept] are the accepted events, [rowss] their rows in DST/Events
      and [hitss] their hits in RECO/Events *)
  Definition hits_file (items : list pitem) (o : sout) : Prop :=
    exists kept rowss hitss, only (fun it => accepted c (pi_pmap it)) items kept /\
      Forall2 (event_rows xys charges sqrt atan qthr c v (rms sqrt)) kept rowss /\ so_rows o = concat rowss /\
      Forall2 (event_hits xys v ch qthr c md thr same_peak corr) kept hitss /\ so_hits o = concat (map2 hit_rows kept hitss) /\
      so_valid o = map2 (fun it h => (pi_event it, has_hits h)) kept hitss /\
      Forall2 (fun it f => fst f = pi_event it /\ (snd f = true <-> accepted c (pi_pmap it))) items (so_filter o) /\
      so_info o = map (fun it => (pi_run it, pi_event it, pi_time it)) kept /\ so_numbers o = map pi_event kept /\
      so_in o = length items /\ so_out o = length kept /\ so_passed o = length kept /\ so_passed o + so_failed o = length items.

  Definition more (items : list pitem) (o o' : sout) : Prop :=
    exists kept rowss hitss flags, only (fun it => accepted c (pi_pmap it)) items kept /\
      Forall2 (event_rows xys charges sqrt atan qthr c v (rms sqrt)) kept rowss /\ so_rows o' = so_rows o ++ concat rowss /\
      Forall2 (event_hits xys v ch qthr c md thr same_peak corr) kept hitss /\ so_hits o' = so_hits o ++ concat (map2 hit_rows kept hitss) /\
      so_valid o' = so_valid o ++ map2 (fun it h => (pi_event it, has_hits h)) kept hitss /\
      so_filter o' = so_filter o ++ flags /\ Forall2 (fun it f => fst f = pi_event it /\ (snd f = true <-> accepted c (pi_pmap it))) items flags /\
      so_info o' = so_info o ++ map (fun it => (pi_run it, pi_event it, pi_time it)) kept /\ so_numbers o' = so_numbers o ++ map pi_event kept /\
      so_in o' = so_in o + length items /\ so_out o' = so_out o + length kept /\ so_passed o' = so_passed o + length kept /\ so_failed o' + length kept = so_failed o + length items.

  Lemma run_more s items o : mk_selector c = Ok s -> (1 <= fst (s2_n c))%Q -> (1 <= fst (s2_nsipm c))%Q -> (forall it, In it items -> readable (pi_pmap it)) ->
    exists o', sophronia_run nearest xys v noise sw ct sqrt atan qthr s (fst (args_of md)) (snd (args_of md)) thr same_peak corr items o = Ok o' /\ more items o o'.
  Proof using griddata noise_len thr_pos corr_ok.
    intros Hs N1 N2. revert o. induction items as [|it items IH]; intros o Rd.
    - exists o. split; [reflexivity|]. exists [], [], [], []. cbn. rewrite !app_nil_r, !Nat.add_0_r. repeat split; constructor.
    - pose proof (proj2 (proj2 (C36_selection c s (pi_pmap it) Hs))) as A. cbn [sophronia_run]. destruct (passed (pmap_filter s (pi_pmap it))) eqn:P.
      + pose proof (Rd it (or_introl eq_refl)) as Ri. destruct (rows_of xys v noise sw ct sqrt atan qthr c s it Hs N1 N2 (fun p => readable_fits _ p Ri) P) as (e & rows & E1 & E2 & R).
        destruct (hits_of s it Hs N1 N2 Ri P) as (h & E3 & H). rewrite E1. cbn [rbind]. rewrite E2. cbn [rbind]. rewrite E3. cbn [rbind].
        replace (match h with Some l => (true, map (pair (pi_event it)) l) | None => (false, []) end) with (has_hits h, hit_rows it h) by (now destruct h).
        match goal with |- context [sophronia_run _ _ _ _ _ _ _ _ _ _ _ _ _ _ _ _ ?o1] => destruct (IH o1) as (o' & D & (kept & rowss & hitss & fl & G)); [intros; apply Rd; now right|] end.
        cbn [so_filter so_valid so_rows so_hits so_info so_numbers so_in so_out so_passed so_failed] in G. destruct G as (O & F & Gr & FH & Gh & Gv & Gf & Ff & Gi & Gn & G1 & G2 & G3 & G4).
        exists o'. split; [exact D|]. exists (it :: kept), (rows :: rowss), (h :: hitss), ((pi_event it, true) :: fl).
        rewrite <- app_assoc in Gr, Gh, Gv, Gf, Gi, Gn. cbn [app concat map map2 length] in *.
        split; [constructor; [now apply A|exact O]|]. split; [now constructor|]. split; [exact Gr|]. split; [now constructor|]. split; [exact Gh|]. split; [exact Gv|]. split; [exact Gf|].
        split; [constructor; [split; [reflexivity|exact A]|exact Ff]|]. split; [exact Gi|]. split; [exact Gn|]. lia.
      + match goal with |- context [sophronia_run _ _ _ _ _ _ _ _ _ _ _ _ _ _ _ _ ?o1] => destruct (IH o1) as (o' & D & (kept & rowss & hitss & fl & G)); [intros; apply Rd; now right|] end.
        cbn [so_filter so_valid so_rows so_hits so_info so_numbers so_in so_out so_passed so_failed] in G. destruct G as (O & F & Gr & FH & Gh & Gv & Gf & Ff & Gi & Gn & G1 & G2 & G3 & G4).
        exists o'. split; [exact D|]. exists kept, rowss, hitss, ((pi_event it, false) :: fl). rewrite <- app_assoc in Gf. cbn [app length] in *.
        split; [constructor; [intros K; apply A in K; discriminate|exact O]|]. split; [exact F|]. split; [exact Gr|]. split; [exact FH|]. split; [exact Gh|]. split; [exact Gv|]. split; [exact Gf|].
        split; [constructor; [split; [reflexivity|exact A]|exact Ff]|]. split; [exact Gi|]. split; [exact Gn|]. lia.
  Qed.

  Theorem C107_run files items : limits_ok c -> (1 <= fst (s2_n c))%Q -> (1 <= fst (s2_nsipm c))%Q ->
    pmap_from_files files = (items, None) -> (forall it, In it items -> readable (pi_pmap it)) ->
    exists o, sophronia nearest xys v noise sw ct sqrt atan qthr c (fst (args_of md)) (snd (args_of md)) thr same_peak corr files = Ok o /\ hits_file items o.
  Proof using griddata noise_len thr_pos corr_ok.
    intros Lim N1 N2 R Rd. apply (proj1 (C36_limits c)) in Lim. destruct Lim as (s & Hs). destruct (run_more s items nothing_done Hs N1 N2 Rd) as (o & D & (kept & rowss & hitss & fl & G)).
    exists o. split; [unfold sophronia; rewrite Hs; cbn [rbind]; rewrite R, D; reflexivity|].
    cbn [so_filter so_valid so_rows so_hits so_info so_numbers so_in so_out so_passed so_failed nothing_done app Nat.add] in G. destruct G as (O & F & Gr & FH & Gh & Gv & Gf & Ff & Gi & Gn & G1 & G2 & G3 & G4).
    exists kept, rowss, hitss. rewrite Gf. repeat (split; [assumption|]). lia.
  Qed.

  Theorem C107_bad_file files items e : limits_ok c -> (1 <= fst (s2_n c))%Q -> (1 <= fst (s2_nsipm c))%Q ->
    pmap_from_files files = (items, Some e) -> (forall it, In it items -> readable (pi_pmap it)) ->
    sophronia nearest xys v noise sw ct sqrt atan qthr c (fst (args_of md)) (snd (args_of md)) thr same_peak corr files = Err e.
  Proof using griddata noise_len thr_pos corr_ok.
    intros Lim N1 N2 R Rd. apply (proj1 (C36_limits c)) in Lim. destruct Lim as (s & Hs). destruct (run_more s items nothing_done Hs N1 N2 Rd) as (o & D & _).
    unfold sophronia. rewrite Hs. cbn [rbind]. now rewrite R, D.
  Qed.
End Sophronia.
Print Assumptions C107_run.
Print Assumptions C107_bad_file.

(** the file of a run of irene (C104), read by a run of sophronia *)
Lemma round_consistent f32 p : s2_ok p -> consistent (round_peak f32 p).
Proof.
  assert (Rw : forall (rws : list (list Q)) n, Forall (fun r => length r = n) rws -> Forall (fun r => length r = n) (map (map f32) rws)).
  { intros rws n H. apply Forall_forall. intros r Hr. apply in_map_iff in Hr. destruct Hr as (r0 & <- & Hr). rewrite map_length. rewrite Forall_forall in H. now apply H. }
  intros (A & B & [C1 C2 C3 C4] & D). unfold consistent, round_peak, is_mat. cbn [p_pmts p_sipms p_times p_widths round_responses r_ids r_wfs rows cols]. rewrite !map_length.
  split; [rewrite C4; now apply Rw|]. assert (Lt : 0 < length (p_times p)) by (destruct (p_times p); [easy|cbn; lia]). destruct (r_ids (p_sipms p)) as [|i ids] eqn:E.
  - cbn. split; [constructor|]. repeat split; try assumption; try lia. easy.
  - destruct D as [D|[D1 D2 D3 D4]]; [discriminate|]. cbn [round_responses r_ids r_wfs rows cols]. rewrite !map_length. split; [rewrite D4; now apply Rw|]. split; [exact Lt|]. split; [exact B|]. split; [exact C4|]. split; [now symmetry|]. split; [now symmetry|]. intros _. exact D4.
Qed.
Lemma irene_readable butter sqrt0 pmts sipms p ns r m e pm f32 xys : NoDup (map pm_id (filter pm_active pmts)) -> (N.of_nat ns <= 65536)%N -> length xys = length sipms ->
  right_pmap butter sqrt0 pmts sipms p ns r m e (Some pm) -> readable xys (round_pmap f32 pm).
Proof.
  intros NI Hn Lx R. destruct (right_ok _ _ _ _ _ _ _ _ _ _ NI Hn R) as ((_ & S2 & _ & L2) & _). split; [cbn; rewrite map_length; exact L2|]. intros q Hq. split.
  - cbn [round_pmap s2s] in Hq. apply in_map_iff in Hq. destruct Hq as (q0 & <- & Hq). apply round_consistent. now apply S2.
  - exact (proj1 (irene_fits butter sqrt0 pmts sipms p ns r m e pm f32 xys (fun _ q _ => q) (fun _ => 0%Z) q Lx R Hq)).
Qed.

Theorem C107_irene butter sqrt f32 pmts sipms p ns nss r m events run nearest xys v noise sw ct atan qthr c md thr same_peak corr :
  (forall e, In e events -> good_event pmts sipms p ns nss (re_pmt e) (re_sipm e) r m) -> selection_fits sipms (cut p) ->
  NoDup (map re_number events) -> NoDup (map pm_id (filter pm_active pmts)) -> (N.of_nat ns <= 65536)%N ->
  takes_nearest nearest -> (forall ids qs w, length ids = length qs -> length (noise ids qs w) = length qs) -> (0 < thr)%Q -> usable_corrections corr ->
  length xys = length sipms -> limits_ok c -> (1 <= fst (s2_n c))%Q -> (1 <= fst (s2_nsipm c))%Q ->
  exists o pms items d,
    irene_run f32 (irene_event butter sqrt pmts sipms p ns nss) events nothing_written = Ok o /\
    sophronia nearest xys v noise sw ct sqrt atan qthr c (fst (args_of md)) (snd (args_of md)) thr same_peak corr [irene_file run o] = Ok d /\
    Forall2 (right_pmap butter sqrt pmts sipms p ns r m) events pms /\
    Forall2 (fun x it => pi_event it = re_number (fst x) /\ pi_time it = re_time (fst x) /\ pi_run it = run /\ pi_pmap it = round_pmap f32 (snd x)) (found (combine events pms)) items /\
    hits_file xys v noise sw ct sqrt atan qthr c md thr same_peak corr items d.
Proof.
  intros G F ND NI Hn Ne Nl Tp Co Lx Lim N1 N2. destruct (C105_irene butter sqrt f32 pmts sipms p ns nss r m events run G F ND NI Hn) as (o & pms & items & R & P & E & I).
  destruct (C107_run nearest Ne xys v noise sw ct sqrt atan qthr Nl c md thr same_peak corr Tp Co [irene_file run o] items Lim N1 N2 E) as (d & D & K).
  - intros it Hi. destruct (f2_in_r _ _ _ _ I Hi) as ([e pm] & Hf & (_ & _ & _ & Er)). cbn [fst snd] in *. rewrite Er. apply found_in in Hf. cbn [fst snd] in Hf.
    apply (irene_readable butter sqrt pmts sipms p ns r m e pm f32 xys NI Hn Lx). clear -P Hf. induction P as [|a b es ps H1 P IH]; [easy|]. destruct Hf as [Eq|Hf]; [now injection Eq as -> ->|auto].
  - exists o, pms, items, d. split; [exact R|]. split; [exact D|]. split; [exact P|]. split; [exact I|exact K].
Qed.
Print Assumptions C107_irene.

(** the three events of C106_example: hits of the first; the second is not accepted; no SiPM of the third is over threshold *)
Example C107_example :
  takes_nearest first_nearest /\ (forall it, In it (fst (pmap_from_files [file_of dor_events])) -> readable [(0, 0); (40, 80)]%Q (pi_pmap it)) /\ usable_corrections None /\
  match sophronia first_nearest [(0, 0); (40, 80)]%Q 2 (fun _ q _ => q) (fun _ => 1%Z) Raw (fun x => x) (fun _ _ => 0%Q) 5 (dor_limits 1 1) (fst (args_of (ByStride 1))) (snd (args_of (ByStride 1))) 3 true None [file_of dor_events] with
  | Ok o => so_filter o = [(7%Z, true); (8%Z, false); (9%Z, true)] /\ so_valid o = [(7%Z, true); (9%Z, false)] /\ so_numbers o = [7%Z; 9%Z] /\
            map (fun h => (fst h, hX (snd h), Qred (hZ (snd h)), hQ (snd h))) (so_hits o) = [(7%Z, 0%Q, 20%Q, 30%Q); (7%Z, 40%Q, 20%Q, 10%Q)] /\ length (so_rows o) = 2
  | Err _ => False
  end.
Proof.
  split; [apply first_nearest_ok|]. split.
  - intros it Hi. vm_compute in Hi. destruct Hi as [<-|[<-|[<-|[]]]]; (split; [cbn; lia|]); intros p Hp; cbn in Hp; repeat (destruct Hp as [<-|Hp]; [split; [unfold consistent, is_mat; cbn; repeat split; try lia; repeat constructor|repeat constructor]|]); destruct Hp.
  - split; [exact I|]. vm_compute. repeat split.
Qed.
