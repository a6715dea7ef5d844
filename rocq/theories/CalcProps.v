(** C101: the spectra written by phyllis, trude and berenice, from the raw waveforms *)
From Verif Require Import Base Arrays PeaksModel PeaksSpec PeaksProofs PeaksMore WfmModel WfmSpec WfmProps CalibModel CalibSpec CalibProps CalibBlr CalibLimits BuffersModel HistModel HistSpec HistProps.
From Verif Require Import IreneModel IreneSpec IreneProofs IreneSteps IreneProps TrigModel TrigSpec TrigProps CalcModel CalcSpec.
Local Open Scope nat_scope.

(** ---- the events ---- *)
Section Run.
  Context {W : Type}.
  Variable n : nat.
  Variable edges : list Q.
  Hypothesis Hn : 0 < n.
  Hypothesis He : edges <> [].
  Hypothesis Hd : non_decreasing edges.
  Definition answers (f : branch) (v : W -> list (list Q)) (ev : W) : Prop := f ev = Ok (v ev) /\ length (v ev) = n.

  Lemma add_one wfs acc before : length wfs = n -> is_spectrum edges n before acc ->
    exists h out, bin_waveforms wfs edges = Ok h /\ add_broadcast acc h = Ok out /\ is_spectrum edges n (fun s => before s ++ nth s wfs []) out.
  Proof using Hn He Hd.
    intros L [A1 A2]. destruct (bin_waveforms_ok wfs edges ltac:(intros ->; cbn in L; lia) He Hd) as (hs & E & F). exists hs. pose proof (Forall2_len _ _ _ F) as Lh.
    assert (Fs : forall s, s < n -> is_histogram edges (nth s wfs []) (nth s hs [])) by (intros s Hs; apply Forall2_nth; [assumption|lia]).
    unfold add_broadcast. replace (length acc =? length hs) with true by (symmetry; apply Nat.eqb_eq; lia). eexists. split; [exact E|]. split; [reflexivity|].
    split; [rewrite length_map2_eq by lia; assumption|]. intros s Hs. rewrite nth_map2_add by lia. apply histogram_add; [now apply A2|now apply Fs].
  Qed.
  Lemma event_spec ev bs vs accs befores : Forall2 (fun f v => answers f v ev) bs vs -> Forall2 (fun b a => is_spectrum edges n b a) befores accs -> length accs = length bs ->
    exists outs, one_event edges bs accs ev = Ok outs /\ Forall2 (fun bv a => is_spectrum edges n (fun s => fst bv s ++ nth s (snd bv ev) []) a) (combine befores vs) outs.
  Proof using Hn He Hd.
    intros F. revert accs befores. induction F as [|f v bs vs [E L] F IH]; intros accs befores G Len.
    - destruct accs; [|discriminate]. inversion G; subst. exists []. split; [reflexivity|constructor].
    - destruct accs as [|a accs]; [discriminate|]. inversion G as [|b ? befores' ? Ga G']; subst. destruct (add_one (v ev) a b L Ga) as (h & out & E1 & E2 & S). destruct (IH accs befores' G' ltac:(now injection Len)) as (outs & E3 & F3).
      exists (out :: outs). cbn [one_event]. rewrite E. cbn [rbind]. rewrite E1. cbn [rbind]. rewrite E2. cbn [rbind]. rewrite E3. split; [reflexivity|]. cbn [combine]. constructor; [exact S|exact F3].
  Qed.
  Lemma events_spec bs vs events : forall accs befores, (forall ev, In ev events -> Forall2 (fun f v => answers f v ev) bs vs) ->
    Forall2 (fun b a => is_spectrum edges n b a) befores accs -> length accs = length bs -> length vs = length bs ->
    exists outs, all_events edges bs accs events = Ok outs /\ Forall2 (fun bv a => is_spectrum edges n (fun s => fst bv s ++ flat_map (fun ev => nth s (snd bv ev) []) events) a) (combine befores vs) outs.
  Proof using Hn He Hd.
    induction events as [|ev events IH]; intros accs befores A G Len Lv.
    - exists accs. split; [reflexivity|]. pose proof (Forall2_len _ _ _ G) as Lb. clear -G Len Lv Lb. assert (L : length vs = length befores) by congruence. clear Len Lv Lb. revert vs L. induction G as [|b a befores accs H G IH]; intros [|v vs] L; try discriminate; [constructor|].
      cbn [combine]. constructor; [|apply IH; now injection L]. destruct H as [H1 H2]. split; [exact H1|]. intros s Hs. cbn [fst flat_map]. rewrite app_nil_r. now apply H2.
    - destruct (event_spec ev bs vs accs befores (A ev (or_introl eq_refl)) G Len) as (outs & E & F). cbn [all_events]. rewrite E. cbn [rbind].
      set (befores' := map (fun bv s => fst bv s ++ nth s (snd bv ev) []) (combine befores vs)).
      assert (G' : Forall2 (fun b a => is_spectrum edges n b a) befores' outs). { unfold befores'. clear -F. induction F; constructor; assumption. }
      pose proof (Forall2_len _ _ _ G) as Lb. pose proof (Forall2_len _ _ _ F) as Lo. rewrite combine_length in Lo.
      destruct (IH outs befores' ltac:(intros; apply A; now right) G' ltac:(lia) Lv) as (outs' & E' & F'). exists outs'. split; [exact E'|].
      assert (Lbv : length befores = length vs) by lia. unfold befores' in F'. clear -F' Lbv. revert vs outs' Lbv F'. induction befores as [|b befores IH]; intros [|v vs] outs' L F'; try discriminate; [cbn in F'; inversion F'; constructor|].
      cbn [combine map] in *. inversion F' as [|? o ? outs2 H F2]; subst. constructor; [|apply IH; [now injection L|exact F2]]. cbn [fst snd flat_map] in *. destruct H as [H1 H2]. split; [exact H1|]. intros s Hs. specialize (H2 s Hs). now rewrite <- app_assoc in H2.
  Qed.
  Lemma city_spec bs vs events : (forall ev, In ev events -> Forall2 (fun f v => answers f v ev) bs vs) -> length vs = length bs ->
    exists outs, calibration_city n edges bs events = Ok outs /\ Forall2 (fun v a => is_spectrum edges n (fun s => flat_map (fun ev => nth s (v ev) []) events) a) vs outs.
  Proof using Hn He Hd.
    intros A Lv. destruct (events_spec bs vs events (repeat (zeros n edges) (length bs)) (repeat (fun _ => []) (length bs)) A) as (outs & E & F); [|apply repeat_length|exact Lv|].
    - generalize (length bs). induction n0; cbn; constructor; [apply zeros_spectrum|exact IHn0].
    - unfold calibration_city. rewrite E. cbn [rbind]. assert (F' : Forall2 (fun v a => is_spectrum edges n (fun s => flat_map (fun ev => nth s (v ev) []) events) a) vs outs).
      { clear -F Lv. revert outs F Lv. generalize (length bs). intros m. revert m. induction vs as [|v vs IH]; intros [|m] outs F L; try discriminate; cbn in F; inversion F; subst; constructor; [assumption|]. apply (IH m); [assumption|now injection L]. }
      exists outs. split; [|exact F']. clear -F'. induction F' as [|v a vs outs [H _] F IH]; [reflexivity|]. cbn [rmap]. unfold write_hist at 1. rewrite H, Nat.eqb_refl, IH. reflexivity.
  Qed.
End Run.

(** ---- the windows ---- *)
Lemma windows_sorted n f w p P : (0 < w < p)%Z -> StronglySorted Z.lt (limits_of (filter P (windows n f w p))).
Proof.
  intros H. unfold limits_of, windows. assert (G : forall n s, StronglySorted Z.lt (flat_map (fun w0 : Z * Z => [fst w0; snd w0]) (filter P (map (fun k => (f + Z.of_nat k * p, f + w + Z.of_nat k * p)%Z) (seq s n)))) /\
    Forall (fun x => (f + Z.of_nat s * p <= x)%Z) (flat_map (fun w0 : Z * Z => [fst w0; snd w0]) (filter P (map (fun k => (f + Z.of_nat k * p, f + w + Z.of_nat k * p)%Z) (seq s n))))).
  { clear n. induction n as [|n IH]; intros s; [split; constructor|]. destruct (IH (S s)) as [I1 I2]. cbn [seq map filter].
    assert (I3 : Forall (fun x => (f + w + Z.of_nat s * p < x)%Z) (flat_map (fun w0 : Z * Z => [fst w0; snd w0]) (filter P (map (fun k => (f + Z.of_nat k * p, f + w + Z.of_nat k * p)%Z) (seq (S s) n))))) by (eapply Forall_impl; [|exact I2]; cbn beta; intros x Hx; lia).
    assert (I4 : Forall (fun x => (f + Z.of_nat s * p <= x)%Z) (flat_map (fun w0 : Z * Z => [fst w0; snd w0]) (filter P (map (fun k => (f + Z.of_nat k * p, f + w + Z.of_nat k * p)%Z) (seq (S s) n))))) by (eapply Forall_impl; [|exact I2]; cbn beta; intros x Hx; lia).
    assert (I5 : Forall (fun x => (f + Z.of_nat s * p < x)%Z) (flat_map (fun w0 : Z * Z => [fst w0; snd w0]) (filter P (map (fun k => (f + Z.of_nat k * p, f + w + Z.of_nat k * p)%Z) (seq (S s) n))))) by (eapply Forall_impl; [|exact I2]; cbn beta; intros x Hx; lia).
    destruct (P _); [|split; assumption]. cbn [flat_map app fst snd]. split; repeat constructor; try assumption; lia. }
  exact (proj1 (G n 0)).
Qed.
Lemma limits_inside ns ws : (forall w, In w ws -> inside (Z.of_nat ns) w = true) -> (forall w, In w ws -> (snd w < Z.of_nat ns)%Z) -> (forall w, In w ws -> (fst w < snd w)%Z) -> Forall (fun x => 0 <= x < Z.of_nat ns)%Z (limits_of ws).
Proof.
  intros A B C. apply Forall_forall. intros x Hx. unfold limits_of in Hx. apply in_flat_map in Hx. destruct Hx as (w & Hw & Hx). specialize (A w Hw). specialize (B w Hw). specialize (C w Hw). unfold inside in A. apply andb_prop in A. destruct A as [A1 A2]. apply Z.leb_le in A1, A2.
  destruct Hx as [<-|[<-|[]]]; lia.
Qed.
Lemma windows_order n f w p x : (0 < w)%Z -> In x (windows n f w p) -> (fst x < snd x)%Z.
Proof. intros H Hx. apply in_map_iff in Hx. destruct Hx as (k & <- & _). cbn. lia. Qed.
Lemma limits_ok sw c ns : good_integrals sw c ns -> valid_integral_limits sw (ic_number c) (ic_start c) (ic_width c) (ic_period c) (Z.of_nat ns) =
  Ok (limits_of (within ns (all_light sw c)), limits_of (within ns (all_dark sw c))).
Proof. intros [W [H1 H2] _ _]. apply C48_valid_limits; try reflexivity; try assumption; try lia. Qed.
Lemma integrals_ok sw c ns : good_integrals sw c ns -> forall wfs,
  integrals ns (limits_of (within ns (all_light sw c))) wfs = Ok (map (window_sums (within ns (all_light sw c))) wfs) /\
  integrals ns (limits_of (within ns (all_dark sw c))) wfs = Ok (map (window_sums (within ns (all_dark sw c))) wfs).
Proof.
  intros [W _ [S1 S2] B] wfs. unfold integrals. split; rewrite C48_integrals; try reflexivity; try assumption; try (now apply windows_sorted).
  - cbn [cols]. apply limits_inside; intros w Hw; [now apply filter_In in Hw|apply B; apply in_or_app; now left|]. apply filter_In in Hw. eapply windows_order; [|apply Hw]. apply W.
  - cbn [cols]. apply limits_inside; intros w Hw; [now apply filter_In in Hw|apply B; apply in_or_app; now right|]. apply filter_In in Hw. eapply windows_order; [|apply Hw]. apply W.
Qed.
Lemma good_edges b : good_bins b -> edges_of b <> [] /\ non_decreasing (edges_of b).
Proof. intros [H1 H2]. destruct (C81_edges _ _ _ H1 H2) as (A & B & _). split; assumption. Qed.
Lemma nth_map_nil (f : list Q -> list Q) l s : s < length l -> nth s (map f l) [] = f (nth s l []).
Proof. intros H. rewrite (nth_indep _ [] (f [])) by (now rewrite map_length). apply map_nth. Qed.

(** ---- spectra of integrals, whatever the processing ---- *)
Lemma integral_city n ns sw b c (proc : list (list Z) -> result (list (list Q))) (v : list (list Z) -> list (list Q)) events : 0 < n -> good_bins b -> good_integrals sw c ns ->
  (forall ev, In ev events -> proc ev = Ok (v ev) /\ length (v ev) = n) ->
  exists light dark, calibration_city n (edges_of b) [fun ev => rbind (proc ev) (integrals ns (limits_of (within ns (all_light sw c)))); fun ev => rbind (proc ev) (integrals ns (limits_of (within ns (all_dark sw c))))] events = Ok [light; dark] /\
    spectrum_of n (edges_of b) (window_sums (within ns (all_light sw c))) (map v events) light /\ spectrum_of n (edges_of b) (window_sums (within ns (all_dark sw c))) (map v events) dark.
Proof.
  intros Hn Hb Hc A. destruct (good_edges b Hb) as [E1 E2].
  destruct (city_spec n (edges_of b) Hn E1 E2 [fun ev => rbind (proc ev) (integrals ns (limits_of (within ns (all_light sw c)))); fun ev => rbind (proc ev) (integrals ns (limits_of (within ns (all_dark sw c))))]
    [fun ev => map (window_sums (within ns (all_light sw c))) (v ev); fun ev => map (window_sums (within ns (all_dark sw c))) (v ev)] events) as (outs & E & F); [|reflexivity|].
  - intros ev Hev. destruct (A ev Hev) as [P L]. destruct (integrals_ok sw c ns Hc (v ev)) as [I1 I2]. repeat constructor; unfold answers; rewrite ?P, ?map_length; cbn [rbind]; assumption.
  - inversion F as [|? light ? ? F1 F']; subst. inversion F' as [|? dark ? ? F2 F'']; subst. inversion F''; subst. exists light, dark. split; [exact E|].
    assert (Eq : forall ws s, s < n -> flat_map (fun ev => nth s (map (window_sums ws) (v ev)) []) events = flat_map (fun wfs => window_sums ws (nth s wfs [])) (map v events)).
    { intros ws s Hs. clear -A Hs. induction events as [|ev events IH]; [reflexivity|]. cbn [flat_map map]. rewrite IH by (intros; apply A; now right). rewrite nth_map_nil; [reflexivity|]. destruct (A ev (or_introl eq_refl)). lia. }
    split; (split; [first [apply F1|apply F2]|]); intros s Hs; rewrite <- Eq by assumption; [now apply F1|now apply F2].
Qed.

(** ---- the processing of phyllis ---- *)
Section Processing.
  Variable butter : Q -> Q * Q * Q.
  Variable sqrt : Q -> Q.
  Lemma all_pmts_active db : filter pm_active (all_pmts db) = all_pmts db.
  Proof using. induction db as [|d db IH]; [reflexivity|]. cbn. f_equal. exact IH. Qed.
  Lemma own_constants nb d w y : deconvolve_one butter sqrt nb {| pm_id := pm_id d; pm_active := true; pm_clean := pm_clean d; pm_blr := pm_blr d; pm_gain := pm_gain d |} w = Ok y -> deconvolved_wf butter sqrt nb d w y /\ length y = length w.
  Proof using.
    unfold deconvolve_one, deconvolved_wf. cbn [pm_clean pm_blr]. destruct (butter (pm_clean d)) as [[b0 b1] a1]. intros D. split; [|apply length_deconvolved in D; now rewrite map_length in D].
    eexists. split; [|exact D]. pose proof (mean0_is nb w) as P. cbv zeta. set (base := (_ / _)%Q) in *. set (ped := mean0 _) in *. clearbody base ped. clear D. induction w; constructor; [unfold zq; now rewrite P|assumption].
  Qed.
  Lemma deconv_all db nb ns ev : 0 < length db -> 400 <= ns -> 0 < nb -> Forall (fun d => ~ (pm_blr d == 0)%Q) db -> good_event (length db) ns ev ->
    exists out, deconv_pmt butter sqrt (all_pmts db) nb ev = Ok out /\ Forall2 (fun dw y => deconvolved_wf butter sqrt nb (fst dw) (snd dw) y /\ length y = length (snd dw)) (combine db ev) out /\ length out = length db.
  Proof using.
    intros H0 H4 Hb F [L Ln]. unfold deconv_pmt. rewrite all_pmts_active. assert (La : length (all_pmts db) = length db) by apply map_length. rewrite La, L, Nat.eqb_refl. cbn [negb]. destruct (Nat.eqb_spec nb 0); [lia|]. destruct (Nat.eqb_spec (length db) 0); [lia|]. cbn [orb].
    clear La H0 n n0. revert ev L Ln. induction F as [|d db Hd F IH]; intros [|w ev] L Ln; try discriminate; [exists []; repeat split; constructor|]. inversion Ln as [|? ? Lw Ln']; subst. destruct (IH ev ltac:(now injection L) Ln') as (out & E & F2 & L2). cbn [all_pmts map combine rmap fst snd].
    assert (Hone : exists y, deconvolve_one butter sqrt nb {| pm_id := pm_id d; pm_active := true; pm_clean := pm_clean d; pm_blr := pm_blr d; pm_gain := pm_gain d |} w = Ok y).
    { unfold deconvolve_one. cbn [pm_clean pm_blr]. destruct (butter (pm_clean d)) as [[b0 b1] a1]. apply C55_domain; [exact Hd|]. rewrite map_length. exact H4. }
    destruct Hone as (y & Ey). rewrite Ey. fold (all_pmts db). rewrite E. exists (y :: out). split; [reflexivity|]. split; [|cbn; now rewrite L2]. constructor; [|exact F2]. exact (own_constants nb d w y Ey).
  Qed.
End Processing.
Lemma take_all {A} (l : list A) : forall pre, take_rows (seq (length pre) (length l)) (pre ++ l) = Ok l.
Proof.
  induction l as [|a l IH]; intros pre; [reflexivity|]. cbn [length seq take_rows]. rewrite nth_error_app2, Nat.sub_diag by lia. cbn [nth_error]. specialize (IH (pre ++ [a])). rewrite app_length, <- app_assoc in IH. cbn [length app] in IH. rewrite Nat.add_1_r in IH. rewrite IH. reflexivity.
Qed.
Lemma filter_true {A} (f : A -> bool) l : (forall x, In x l -> f x = true) -> filter f l = l.
Proof. induction l as [|a l IH]; intros H; [reflexivity|]. cbn. rewrite (H a (or_introl eq_refl)), IH; [reflexivity|]. intros; apply H; now right. Qed.
Lemma subtracted_all m ev : m <> BlsOther -> exists out, subtract_baseline m ev = Ok out /\ Forall2 (subtracted m) ev out.
Proof. intros H. destruct (C54_subtract_baseline m ev H) as (out & E & F). exists out. split; [exact E|]. exact F. Qed.
Lemma active_positions db : (forall d, In d db -> pm_active d = true) -> filter (fun i => nth i (map pm_active db) false) (seq 0 (length db)) = seq 0 (length db).
Proof.
  intros H. apply filter_true. intros i Hi. apply in_seq in Hi. rewrite (nth_indep _ false (pm_active (nth i db {| pm_id := 0; pm_active := true; pm_clean := 0; pm_blr := 0; pm_gain := 0 |}))) by (rewrite map_length; lia).
  rewrite map_nth. apply H. apply nth_In. lia.
Qed.

(** C101: the spectra of phyllis *)
Theorem C101_phyllis butter sqrt db mode n_baseline n_maw b c ns events : 0 < length db -> good_bins b -> good_integrals 25 c ns -> mode <> PmtModeOther ->
  (mode = Gain \/ mode = GainMaw -> 400 <= ns /\ 0 < n_baseline /\ 0 < n_maw /\ Forall (fun d => ~ (pm_blr d == 0)%Q) db) -> (mode = GainNodeconv -> forall d, In d db -> pm_active d = true) ->
  Forall (good_event (length db) ns) events ->
  exists wfs light dark, phyllis butter sqrt db mode n_baseline n_maw b c ns events = Ok [light; dark] /\
    Forall2 (fun ev ys => Forall2 (fun dw y => own_pmt_wf butter sqrt mode n_baseline n_maw (fst dw) (snd dw) y /\ length y = ns) (combine db ev) ys) events wfs /\
    spectrum_of (length db) (edges_of b) (window_sums (within ns (all_light 25 c))) wfs light /\ spectrum_of (length db) (edges_of b) (window_sums (within ns (all_dark 25 c))) wfs dark.
Proof.
  intros Hn Hb Hc Hm Hg Hnd F. unfold phyllis.
  assert (P : exists proc, pmt_processing butter sqrt db mode n_baseline n_maw = Ok proc /\ forall ev, good_event (length db) ns ev -> exists ys, proc ev = Ok ys /\ length ys = length db /\
    Forall2 (fun dw y => own_pmt_wf butter sqrt mode n_baseline n_maw (fst dw) (snd dw) y /\ length y = ns) (combine db ev) ys).
  { destruct mode; try contradiction; cbn [pmt_processing]; eexists; (split; [reflexivity|]); intros ev He.
    - destruct Hg as (G1 & G2 & G3 & G4); [now left|]. destruct (deconv_all butter sqrt db n_baseline ns ev Hn G1 G2 G4 He) as (out & E & F2 & L). exists out. split; [exact E|]. split; [exact L|].
      destruct He as [_ Ln]. assert (Lc : Forall (fun dw : pmt_row * list Z => length (snd dw) = ns) (combine db ev)). { apply Forall_forall. intros [d w] Hw. apply in_combine_r in Hw. rewrite Forall_forall in Ln. now apply Ln. }
      clear -F2 Lc. induction F2 as [|dw y l out [A B] F2 IH]; constructor; inversion Lc; subst; [split; [exact A|congruence]|now apply IH].
    - destruct Hg as (G1 & G2 & G3 & G4); [now right|]. destruct (deconv_all butter sqrt db n_baseline ns ev Hn G1 G2 G4 He) as (out & E & F2 & L). rewrite E. cbn [rbind]. unfold pmt_subtract_maw. destruct (Nat.eqb_spec n_maw 0); [lia|]. eexists. split; [reflexivity|]. rewrite map_length. split; [exact L|].
      destruct He as [_ Ln]. assert (Lc : Forall (fun dw : pmt_row * list Z => length (snd dw) = ns) (combine db ev)). { apply Forall_forall. intros [d w] Hw. apply in_combine_r in Hw. rewrite Forall_forall in Ln. now apply Ln. }
      clear -F2 Lc G3. assert (Lm : forall y, length (maw n_maw y) = length y) by (intros y; unfold maw; now rewrite map_length, seq_length).
      induction F2 as [|dw y l out [A B] F2 IH]; cbn [map]; constructor; inversion Lc; subst; [|now apply IH]. assert (Ly : length (map2 Qminus y (maw n_maw y)) = length y) by (rewrite length_map2_eq; rewrite ?Lm; reflexivity). split; [|congruence].
      cbn [own_pmt_wf]. exists y. split; [exact A|]. split; [exact Ly|]. intros k Hk. rewrite (nth_map2 _ _ _ _ 0%Q 0%Q 0%Q) by (rewrite ?Lm; lia). now rewrite maw_spec.
    - specialize (Hnd eq_refl). destruct (subtracted_all BlsMode ev ltac:(discriminate)) as (out & E & F2). destruct He as [L Ln]. exists out. unfold mode_subtractor. destruct ev as [|w0 ev0]; [cbn in L; lia|]. set (ev := w0 :: ev0) in *. rewrite E. cbn [rbind]. rewrite active_positions by assumption.
      pose proof (Forall2_len _ _ _ F2) as Lo. rewrite <- L, Lo. split; [exact (take_all out [])|]. split; [reflexivity|]. clearbody ev. clear -F2 L Ln. revert db L. induction F2 as [|w y ev out A F2 IH]; intros [|d db] L; try discriminate; cbn [combine]; constructor.
      + inversion Ln; subst. cbn [fst snd own_pmt_wf]. split; [exact A|]. destruct A as (b & _ & A). now apply Forall2_len in A.
      + inversion Ln; subst. apply IH; [assumption|now injection L]. }
  destruct P as (proc & Ep & P). rewrite Ep. cbn [rbind]. rewrite (limits_ok 25 c ns Hc). cbn [rbind]. set (v := fun ev => match proc ev with Ok y => y | Err _ => [] end).
  assert (A : forall ev, In ev events -> proc ev = Ok (v ev) /\ length (v ev) = length db /\ Forall2 (fun dw y => own_pmt_wf butter sqrt mode n_baseline n_maw (fst dw) (snd dw) y /\ length y = ns) (combine db ev) (v ev)).
  { intros ev Hev. rewrite Forall_forall in F. destruct (P ev (F ev Hev)) as (ys & E & L & O). unfold v. rewrite E. repeat split; assumption. }
  destruct (integral_city (length db) ns 25 b c proc v events Hn Hb Hc) as (light & dark & E & S1 & S2); [intros ev Hev; destruct (A ev Hev) as (A1 & A2 & _); now split|].
  exists (map v events), light, dark. split; [exact E|]. split; [|split; assumption]. clear -A. induction events as [|ev events IH]; cbn [map]; constructor; [now apply A; left|]. apply IH. intros; apply A; now right.
Qed.
Print Assumptions C101_phyllis.

(** the spectra of trude, in the modes that only subtract the baseline *)
Theorem C101_trude n mode b c ns events : 0 < n -> good_bins b -> good_integrals 1000 c ns -> mode = SubMode \/ mode = SubMedian -> Forall (good_event n ns) events ->
  exists wfs light dark, trude n mode b c ns events = Ok [light; dark] /\ Forall2 (Forall2 (own_sipm_wf mode)) events wfs /\
    spectrum_of n (edges_of b) (window_sums (within ns (all_light 1000 c))) wfs light /\ spectrum_of n (edges_of b) (window_sums (within ns (all_dark 1000 c))) wfs dark.
Proof.
  intros Hn Hb Hc Hm F. set (v := fun ev => match sipm_processing mode ev with Ok y => y | Err _ => [] end).
  assert (A : forall ev, In ev events -> sipm_processing mode ev = Ok (v ev) /\ length (v ev) = n /\ Forall2 (own_sipm_wf mode) ev (v ev)).
  { intros ev Hev. rewrite Forall_forall in F. destruct (F ev Hev) as [L _]. unfold v. destruct Hm as [-> | ->]; cbn [sipm_processing own_sipm_wf].
    - destruct (subtracted_all BlsMode ev ltac:(discriminate)) as (out & E & F2). rewrite E. pose proof (Forall2_len _ _ _ F2). repeat split; [lia|exact F2].
    - destruct (subtracted_all BlsMedian ev ltac:(discriminate)) as (out & E & F2). rewrite E. pose proof (Forall2_len _ _ _ F2). repeat split; [lia|exact F2]. }
  destruct (integral_city n ns 1000 b c (sipm_processing mode) v events Hn Hb Hc) as (light & dark & E & S1 & S2); [intros ev Hev; destruct (A ev Hev) as (A1 & A2 & _); now split|].
  exists (map v events), light, dark. split; [unfold trude; rewrite (limits_ok 1000 c ns Hc); cbn [rbind]; destruct Hm as [-> | ->]; exact E|]. split; [|split; assumption]. clear -A. induction events as [|ev events IH]; cbn [map]; constructor; [now apply A; left|]. apply IH. intros; apply A; now right.
Qed.
Print Assumptions C101_trude.

(** the spectra of berenice *)
Theorem C101_berenice n gains b ns events : 0 < n -> length gains = n -> good_bins b -> Forall (good_event n ns) events ->
  exists adcs medians pes_mode pes_median h1 h2 h3, berenice n gains b events = Ok [h1; h2; h3] /\
    Forall2 (Forall2 (subtracted BlsMode)) events adcs /\ Forall2 (Forall2 (subtracted BlsMedian)) events medians /\
    Forall2 (fun ys zs => Forall2 (fun gy z => in_pes (fst gy) (snd gy) z) (combine gains ys) zs) adcs pes_mode /\
    Forall2 (fun ys zs => Forall2 (fun gy z => in_pes (fst gy) (snd gy) z) (combine gains ys) zs) medians pes_median /\
    spectrum_of n (edges_of b) (fun wf => wf) adcs h1 /\ spectrum_of n (edges_of b) (fun wf => wf) pes_mode h2 /\ spectrum_of n (edges_of b) (fun wf => wf) pes_median h3.
Proof.
  intros Hn Hg Hb F. destruct (good_edges b Hb) as [E1 E2].
  assert (P : forall m ev, m <> BlsOther -> good_event n ns ev -> exists out, subtract_baseline m ev = Ok out /\ Forall2 (subtracted m) ev out /\ length out = n /\
    exists z, calibrate_sipms m ev gains = Ok z /\ length z = n /\ Forall2 (fun gy z => in_pes (fst gy) (snd gy) z) (combine gains out) z).
  { intros m ev Hm [L _]. destruct (subtracted_all m ev Hm) as (out & E & F2). pose proof (Forall2_len _ _ _ F2) as Lo. exists out. split; [exact E|]. split; [exact F2|]. split; [lia|]. unfold calibrate_sipms. rewrite E. cbn [rbind]. unfold calibrate_wfs. rewrite per_row_ok by lia.
    eexists. split; [reflexivity|]. split; [rewrite length_map2_eq; lia|]. assert (Lg : length gains = length out) by lia. clear -Lg. revert out Lg. induction gains as [|g gains IH]; intros [|y out] L; try discriminate; cbn [combine map2]; constructor.
    - cbn [fst snd]. unfold in_pes. clear. induction y as [|a y IH]; constructor; [reflexivity|exact IH].
    - apply IH. now injection L. }
  set (get := fun r : result (list (list Q)) => match r with Ok y => y | Err _ => [] end).
  set (v1 := fun ev => get (subtract_baseline BlsMode ev)). set (v2 := fun ev => get (subtract_baseline BlsMedian ev)). set (z1 := fun ev => get (calibrate_sipms BlsMode ev gains)). set (z2 := fun ev => get (calibrate_sipms BlsMedian ev gains)).
  assert (A : forall ev, In ev events -> (subtract_baseline BlsMode ev = Ok (v1 ev) /\ length (v1 ev) = n /\ Forall2 (subtracted BlsMode) ev (v1 ev)) /\ Forall2 (subtracted BlsMedian) ev (v2 ev) /\
    (calibrate_sipms BlsMode ev gains = Ok (z1 ev) /\ length (z1 ev) = n /\ Forall2 (fun gy z => in_pes (fst gy) (snd gy) z) (combine gains (v1 ev)) (z1 ev)) /\
    (calibrate_sipms BlsMedian ev gains = Ok (z2 ev) /\ length (z2 ev) = n /\ Forall2 (fun gy z => in_pes (fst gy) (snd gy) z) (combine gains (v2 ev)) (z2 ev))).
  { intros ev Hev. rewrite Forall_forall in F. specialize (F ev Hev). destruct (P BlsMode ev ltac:(discriminate) F) as (o1 & Q1 & Q2 & Q3 & y1 & Q4 & Q5 & Q6). destruct (P BlsMedian ev ltac:(discriminate) F) as (o2 & R1 & R2 & R3 & y2 & R4 & R5 & R6).
    unfold v1, v2, z1, z2. rewrite Q1, Q4, R1, R4. cbn [get]. repeat split; assumption. }
  destruct (city_spec n (edges_of b) Hn E1 E2 [subtract_baseline BlsMode; fun ev => calibrate_sipms BlsMode ev gains; fun ev => calibrate_sipms BlsMedian ev gains] [v1; z1; z2] events) as (outs & E & G); [|reflexivity|].
  - intros ev Hev. destruct (A ev Hev) as ((A1 & A2 & _) & _ & (B1 & B2 & _) & C1 & C2 & _). repeat constructor; assumption.
  - inversion G as [|? h1 ? ? G1 G']; subst. inversion G' as [|? h2 ? ? G2 G'']; subst. inversion G'' as [|? h3 ? ? G3 G3']; subst. inversion G3'; subst.
    exists (map v1 events), (map v2 events), (map z1 events), (map z2 events), h1, h2, h3. split; [exact E|].
    assert (M : forall (R : list (list Z) -> list (list Q) -> Prop) v, (forall ev, In ev events -> R ev (v ev)) -> Forall2 R events (map v events)). { intros R v. clear. induction events as [|ev events IH]; intros H; cbn [map]; constructor; [apply H; now left|]. apply IH. intros; apply H; now right. }
    assert (M2 : forall (R : list (list Q) -> list (list Q) -> Prop) v w, (forall ev, In ev events -> R (v ev) (w ev)) -> Forall2 R (map v events) (map w events)). { intros R v w. clear. induction events as [|ev events IH]; intros H; cbn [map]; constructor; [apply H; now left|]. apply IH. intros; apply H; now right. }
    split; [apply M; intros; now apply A|]. split; [apply M; intros; now apply A|]. split; [apply M2; intros; now apply A|]. split; [apply M2; intros; now apply A|].
    assert (Eq : forall v s, flat_map (fun ev => nth s (v ev) []) events = flat_map (fun wfs : list (list Q) => nth s wfs []) (map v events)) by (intros v s; clear; induction events as [|ev events IH]; [reflexivity|]; cbn; now rewrite IH).
    unfold spectrum_of. split; [|split]; (split; [first [apply G1|apply G2|apply G3]|]); intros s Hs; rewrite <- Eq; [now apply G1|now apply G2|now apply G3].
Qed.
Print Assumptions C101_berenice.

(** ---- what the cities do not do ---- *)
(** a mode that is not one of those known is refused *)
Theorem C101_unknown_mode : (forall butter sqrt db n_baseline n_maw b c ns events, phyllis butter sqrt db PmtModeOther n_baseline n_maw b c ns events = Err ValueError) /\
  (forall n b c ns events, trude n SipmModeOther b c ns events = Err ValueError).
Proof. split; reflexivity. Qed.
Print Assumptions C101_unknown_mode.
(** the modes of trude that calibrate are accepted, and fail with the first event *)
Theorem C101_trude_calibrated_refuted n mode b c ns events : good_integrals 1000 c ns -> events <> [] -> mode <> SubMode -> mode <> SubMedian -> mode <> SipmModeOther -> trude n mode b c ns events = Err TypeError.
Proof.
  intros Hc He H1 H2 H3. assert (E : forall ev, sipm_processing mode ev = Err TypeError) by (destruct mode; easy). destruct events as [|ev events]; [easy|].
  unfold trude. destruct mode; try easy; rewrite (limits_ok 1000 c ns Hc); cbn [rbind]; unfold calibration_city; cbn [all_events repeat length one_event]; rewrite E; reflexivity.
Qed.
Print Assumptions C101_trude_calibrated_refuted.

Lemma filter_len_le {A} (p : A -> bool) l : length (filter p l) <= length l.
Proof. induction l as [|a l IH]; [apply le_n|]. cbn. destruct (p a); cbn; lia. Qed.
Lemma take_some {A} (l : list A) ps : (forall i, In i ps -> i < length l) -> exists r, take_rows ps l = Ok r /\ length r = length ps.
Proof.
  induction ps as [|i ps IH]; intros H; [exists []; split; reflexivity|]. cbn [take_rows]. destruct (nth_error l i) as [a|] eqn:E; [|apply nth_error_None in E; specialize (H i (or_introl eq_refl)); lia].
  destruct IH as (r & Er & L); [intros; apply H; now right|]. rewrite Er. exists (a :: r). split; [reflexivity|cbn; lia].
Qed.
Lemma n_active db : length (filter (fun i => nth i (map pm_active db) false) (seq 0 (length db))) = length (filter pm_active db).
Proof.
  assert (G : forall db pre, length (filter (fun i => nth i (map pm_active (pre ++ db)) false) (seq (length pre) (length db))) = length (filter pm_active db)).
  { clear. induction db as [|d db IH]; intros pre; [reflexivity|]. cbn [length seq filter]. specialize (IH (pre ++ [d])). rewrite <- app_assoc, app_length in IH. cbn [app length] in IH. rewrite Nat.add_1_r in IH.
    replace (nth (length pre) (map pm_active (pre ++ d :: db)) false) with (pm_active d). - destruct (pm_active d); cbn [length]; now rewrite IH.
    - rewrite map_app, app_nth2; rewrite map_length; [|lia]. now rewrite Nat.sub_diag. }
  exact (G db []).
Qed.
(** without deconvolution, with a PMT that is not in use, phyllis fails with the first event unless exactly one PMT is in use *)
Theorem C101_nodeconv_refuted butter sqrt db n_baseline n_maw b c ns events : good_bins b -> good_integrals 25 c ns -> events <> [] -> Forall (good_event (length db) ns) events ->
  (exists d, In d db /\ pm_active d = false) -> length (filter pm_active db) <> 1 -> phyllis butter sqrt db GainNodeconv n_baseline n_maw b c ns events = Err ValueError.
Proof.
  intros Hb Hc He F (d0 & Hd0 & Hi) Hk. unfold phyllis. cbn [pmt_processing rbind]. rewrite (limits_ok 25 c ns Hc). cbn [rbind]. destruct events as [|ev events]; [easy|]. inversion F as [|? ? [L Ln] _]; subst.
  assert (Lk : length (filter pm_active db) < length db).
  { clear -Hd0 Hi. induction db as [|d db IH]; [easy|]. cbn [filter length]. destruct Hd0 as [->|H]; [rewrite Hi; pose proof (filter_len_le pm_active db); lia|]. specialize (IH H). destruct (pm_active d); cbn [length]; lia. }
  destruct (subtracted_all BlsMode ev ltac:(discriminate)) as (out & E & F2). pose proof (Forall2_len _ _ _ F2) as Lo.
  destruct (take_some out (filter (fun i => nth i (map pm_active db) false) (seq 0 (length db)))) as (r & Er & Lr). { intros i Hi2. apply filter_In in Hi2. destruct Hi2 as [Hi2 _]. apply in_seq in Hi2. lia. }
  rewrite n_active in Lr. assert (Em : mode_subtractor db ev = Ok r). { unfold mode_subtractor. destruct ev; [cbn in L; destruct db; [easy|discriminate]|]. rewrite E. exact Er. }
  unfold calibration_city. cbn [all_events repeat length one_event]. rewrite Em. cbn [rbind]. destruct (integrals_ok 25 c ns Hc r) as [I1 _]. rewrite I1. cbn [rbind]. destruct (good_edges b Hb) as [E1 E2].
  set (vals := map (window_sums (within ns (all_light 25 c))) r). assert (Lv : length vals = length r) by apply map_length. destruct r as [|r0 r]; [reflexivity|].
  destruct (bin_waveforms_ok vals (edges_of b) ltac:(discriminate) E1 E2) as (h & Eh & Fh). rewrite Eh. cbn [rbind]. pose proof (Forall2_len _ _ _ Fh) as Lh. assert (Lz : length (zeros (length db) (edges_of b)) = length db) by apply repeat_length.
  set (z := zeros (length db) (edges_of b)) in *. unfold add_broadcast. destruct (Nat.eqb_spec (length z) (length h)); [lia|]. destruct z as [|z0 [|z1 z]]; [cbn in Lz; destruct db; [easy|discriminate]|cbn [length] in *; lia|]. destruct h as [|h0 [|h1 h]]; cbn [length] in *; [lia|lia|reflexivity].
Qed.
Print Assumptions C101_nodeconv_refuted.

(** ---- a case ---- *)
Lemma good_events_check n ns evs : forallb (fun ev => (length ev =? n) && forallb (fun w => length w =? ns) ev) evs = true -> Forall (good_event n ns) evs.
Proof. intros H. rewrite forallb_forall in H. apply Forall_forall. intros ev Hev. specialize (H ev Hev). apply andb_prop in H. destruct H as [H1 H2]. apply Nat.eqb_eq in H1. split; [exact H1|]. rewrite forallb_forall in H2. apply Forall_forall. intros w Hw. apply Nat.eqb_eq. now apply H2. Qed.
Definition ex_bins : bins_conf := {| bc_min := - (1 # 2); bc_max := 20; bc_width := 5 |}.
Definition ex_integrals : integrals_conf := {| ic_number := 2; ic_start := 4; ic_width := 2; ic_period := 5 |}.
Definition ex_events : list (list (list Z)) := [[[5; 5; 5; 5; 9; 8; 0; 5; 5; 5; 5; 5]; [3; 3; 3; 3; 3; 3; 3; 3; 3; 3; 3; 3]]; [[5; 5; 5; 5; 15; 5; 5; 5; 5; 5; 5; 5]; [3; 3; 3; 3; 4; 3; 3; 3; 3; 3; 3; 3]]]%Z.
Lemma ex_integrals_good : good_integrals 1000 ex_integrals 12.
Proof.
  split; [split; reflexivity| |split; discriminate|].
  - split; split; vm_compute; lia.
  - intros w Hw. vm_compute in Hw. repeat (destruct Hw as [<-|Hw]; [reflexivity|]). destruct Hw.
Qed.
Example C101_ex : trude 2 SubMode ex_bins ex_integrals 12 ex_events = Ok [[[2; 1; 1; 0]; [4; 0; 0; 0]]; [[4; 0; 0; 0]; [4; 0; 0; 0]]] /\
  good_bins ex_bins /\ good_integrals 1000 ex_integrals 12 /\ Forall (good_event 2 12) ex_events /\
  berenice 2 [1 # 2; 0]%Q ex_bins ex_events = Ok [[[23; 0; 1; 0]; [24; 0; 0; 0]]; [[21; 2; 0; 0]; [24; 0; 0; 0]]; [[21; 2; 0; 0]; [24; 0; 0; 0]]].
Proof. split; [vm_compute; reflexivity|]. split; [split; reflexivity|]. split; [apply ex_integrals_good|]. split; [apply good_events_check; reflexivity|vm_compute; reflexivity]. Qed.

Definition ex_pmt (a : bool) : pmt_row := {| pm_id := 0; pm_active := a; pm_clean := 1; pm_blr := 1 # 1000; pm_gain := 20 |}.
Definition ex_integrals25 : integrals_conf := {| ic_number := 1; ic_start := 85 # 40; ic_width := 2 # 40; ic_period := 5 # 40 |}.
Definition w_pulse (ns : nat) : list Z := repeat 5%Z 85 ++ [9; 9]%Z ++ repeat 5%Z (ns - 87).
Definition w_flat (ns : nat) : list Z := repeat 3%Z ns.
Lemma ex_integrals25_good ns : 90 <= ns -> good_integrals 25 ex_integrals25 ns.
Proof.
  intros H. assert (El : all_light 25 ex_integrals25 = [(85, 87)]%Z) by reflexivity. assert (Ed : all_dark 25 ex_integrals25 = [(3, 5)]%Z) by reflexivity.
  assert (I1 : inside (Z.of_nat ns) (85, 87)%Z = true) by (unfold inside; cbn [fst snd]; lia). assert (I2 : inside (Z.of_nat ns) (3, 5)%Z = true) by (unfold inside; cbn [fst snd]; lia).
  split; unfold within; rewrite ?El, ?Ed; cbn [filter]; rewrite ?I1, ?I2.
  - split; reflexivity.
  - unfold half_out, how_many_limits, limits_of. cbn [flat_map fst snd app filter].
    assert (Z.ltb (Z.of_nat ns) 85 = false /\ Z.ltb (Z.of_nat ns) 87 = false /\ Z.ltb (Z.of_nat ns) 3 = false /\ Z.ltb (Z.of_nat ns) 5 = false) as (-> & -> & -> & ->) by (rewrite !Z.ltb_ge; lia). repeat split; cbn; lia.
  - split; discriminate.
  - intros w [<-|[<-|[]]]; cbn [snd]; lia.
Qed.
(** with one PMT in use, its histogram is added to those of all the PMTs *)
Theorem C101_nodeconv_one_refuted : exists db b c ns events light dark, good_bins b /\ good_integrals 25 c ns /\ Forall (good_event (length db) ns) events /\
  phyllis (fun _ => (1, 0, 0)%Q) (fun x => x) db GainNodeconv 1 1 b c ns events = Ok [light; dark] /\
  exists s k, s < length db /\ nth k (nth s light []) 0 = 1 /\ forall ev y, In ev events -> subtracted BlsMode (nth s ev []) y -> how_many (in_bin (edges_of b) k) (window_sums (within ns (all_light 25 c)) y) = 0.
Proof.
  exists [ex_pmt true; ex_pmt false], ex_bins, ex_integrals25, 90, [[w_pulse 90; w_flat 90]], [[0; 1; 0; 0]; [0; 1; 0; 0]], [[1; 0; 0; 0]; [1; 0; 0; 0]].
  split; [split; reflexivity|]. split; [apply ex_integrals25_good; lia|]. split; [apply good_events_check; reflexivity|]. split; [vm_compute; reflexivity|]. exists 1, 1. split; [cbn; lia|]. split; [reflexivity|].
  intros ev y [<-|[]] (b & Hb & F). cbn [nth] in *. assert (Eb : b = 3%Q).
  { cbn [is_baseline] in Hb. destruct Hb as [[C _]|(z & -> & [Hz _])]; [discriminate|]. vm_compute in Hz. repeat (destruct Hz as [<-|Hz]; [reflexivity|]). destruct Hz. }
  subst b. assert (Ey : y = map (fun x => if (x =? 0)%Z then 0%Q else (inject_Z x - 3)%Q) (w_flat 90)). { clear -F. induction F as [|x v l y E F IH]; [reflexivity|]. cbn [map]. now rewrite E, IH. }
  rewrite Ey. vm_compute. reflexivity.
Qed.
Print Assumptions C101_nodeconv_one_refuted.
Example C101_phyllis_ex : exists wfs light dark, phyllis ex_butter ex_sqrt [ex_pmt true; ex_pmt false] GainMaw 80 10 ex_bins ex_integrals25 400 [[w_pulse 400; w_flat 400]; [w_flat 400; w_pulse 400]] = Ok [light; dark] /\
  Forall2 (fun ev ys => Forall2 (fun dw y => own_pmt_wf ex_butter ex_sqrt GainMaw 80 10 (fst dw) (snd dw) y /\ length y = 400) (combine [ex_pmt true; ex_pmt false] ev) ys) [[w_pulse 400; w_flat 400]; [w_flat 400; w_pulse 400]] wfs.
Proof.
  destruct (C101_phyllis ex_butter ex_sqrt [ex_pmt true; ex_pmt false] GainMaw 80 10 ex_bins ex_integrals25 400 [[w_pulse 400; w_flat 400]; [w_flat 400; w_pulse 400]]) as (wfs & light & dark & E & F & _).
  - cbn; lia.
  - split; reflexivity.
  - apply ex_integrals25_good. apply Nat.leb_le. reflexivity.
  - discriminate.
  - intros _. split; [apply le_n|]. split; [lia|]. split; [lia|]. repeat constructor; discriminate.
  - discriminate.
  - apply good_events_check. reflexivity.
  - exists wfs, light, dark. split; assumption.
Qed.
