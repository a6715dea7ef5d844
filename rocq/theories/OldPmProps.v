(** C96: PMap files without individual PMTs or without widths *)
From Verif Require Import Base PeaksModel PeaksProofs BuffersModel PmapioModel PmapioSpec PmapioProofs PmapioProps OldPmModel OldPmSpec.
From Verif Require DetsimNumbers.
Local Open Scope nat_scope.

Lemma length_diff l : length (diff l) = length l - 1.
Proof. induction l as [|a [|b l] IH]; [reflexivity|reflexivity|]. change (diff (a :: b :: l)) with ((b - a)%Q :: diff (b :: l)). cbn [length] in *. rewrite IH. lia. Qed.
Lemma nth_diff l i : S i < length l -> nth i (diff l) 0%Q = (nth (S i) l 0 - nth i l 0)%Q.
Proof.
  revert i. induction l as [|a [|b l] IH]; intros i H; [cbn in H; lia|cbn in H; lia|]. change (diff (a :: b :: l)) with ((b - a)%Q :: diff (b :: l)).
  destruct i as [|i]; [reflexivity|]. change (nth (S i) ((b - a)%Q :: diff (b :: l)) 0%Q) with (nth i (diff (b :: l)) 0%Q). rewrite IH by (cbn in *; lia). reflexivity.
Qed.
Lemma spaced_diff l d : equally_spaced l d <-> forall x, In x (diff l) -> (x == d)%Q.
Proof.
  split; intros H.
  - intros x Hx. apply In_nth with (d := 0%Q) in Hx. destruct Hx as (i & Hi & <-). rewrite length_diff in Hi. rewrite nth_diff by lia. apply H. lia.
  - intros i Hi. rewrite <- nth_diff by assumption. apply H. apply nth_In. rewrite length_diff. lia.
Qed.
Lemma fold_qmax ds d : (forall x, In x (d :: ds) -> (x <= fold_left qmax ds d)%Q) /\ In (fold_left qmax ds d) (d :: ds).
Proof.
  revert d. induction ds as [|a ds IH]; intros d; cbn [fold_left].
  - split; [intros x [<-|[]]; lra|now left].
  - destruct (IH (qmax d a)) as [H1 H2]. assert (Q1 : (d <= qmax d a)%Q /\ (a <= qmax d a)%Q /\ (qmax d a = d \/ qmax d a = a)) by (unfold qmax; destruct (Qltb_spec d a); repeat split; lra || auto).
    destruct Q1 as (A & B & C). split.
    + intros x [<-|[<-|H]]; [|specialize (H1 _ (or_introl eq_refl)); lra|apply H1; now right]. specialize (H1 _ (or_introl eq_refl)). lra.
    + destruct H2 as [<-|H2]; [destruct C as [->| ->]; [now left|right; now left]|right; now right].
Qed.
Lemma fake_guess times : times <> [] -> guessed_widths times (fake_widths times).
Proof.
  intros NE. unfold guessed_widths, fake_widths. pose proof (length_diff times) as L. destruct (diff times) as [|d ds] eqn:E.
  - cbn [length] in L. assert (length times = 1) by (destruct times; [easy|cbn in *; lia]). split; [cbn; lia|]. split; [reflexivity|]. split; [lia|]. intros N. exfalso. apply (N 0%Q). intros i Hi. lia.
  - cbn [length] in L. destruct (forallb (fun x => Qeqb x d) (d :: ds)) eqn:F.
    + rewrite forallb_forall in F. split; [apply repeat_length|]. split; [lia|]. split.
      * intros _ d' H w Hw. apply repeat_spec in Hw. subst w. apply (proj1 (spaced_diff times d') H). rewrite E. now left.
      * intros N. exfalso. apply (N d). apply spaced_diff. rewrite E. intros x Hx. apply Qeqb_eq. now apply F.
    + assert (NS : forall d', ~ equally_spaced times d').
      { intros d' H. pose proof (proj1 (spaced_diff times d') H) as K. rewrite E in K. assert (forallb (fun x => Qeqb x d) (d :: ds) = true); [|congruence]. apply forallb_forall. intros x Hx. apply Qeqb_eq. rewrite (K x Hx). symmetry. apply K. now left. }
      split; [apply repeat_length|]. split; [lia|]. split; [intros _ d' H; exfalso; exact (NS d' H)|]. intros _ g [(i & Hi & G1) G2]. set (m := fold_left qmax ds d). destruct (fold_qmax ds d) as [M1 M2]. fold m in M1, M2.
      assert (Em : (m == g)%Q). { rewrite <- E in M1, M2. apply In_nth with (d := 0%Q) in M2. destruct M2 as (j & Hj & Ej). rewrite length_diff in Hj. rewrite nth_diff in Ej by lia. specialize (G2 j ltac:(lia)). rewrite Ej in G2.
        specialize (M1 (nth i (diff times) 0%Q) ltac:(apply nth_In; rewrite length_diff; lia)). rewrite nth_diff in M1 by assumption. lra. }
      exists (DetsimModel.np_round (m / 1000)). split; [|intros w Hw; apply repeat_spec in Hw; now subst w].
      pose proof (DetsimNumbers.np_round_nearest (m / 1000)) as R. unfold DetsimNumbers.nearest in R. destruct R as [R _]. apply Qabs.Qabs_Qle_condition in R. set (z := inject_Z (DetsimModel.np_round (m / 1000))) in *.
      assert (K : (m == m / 1000 * 1000)%Q) by field. set (y := (m / 1000)%Q) in *. lra.
Qed.

Lemma unique_of_nat seen l : uniqueZ_from (map Z.of_nat seen) (map Z.of_nat l) = map Z.of_nat (unique_from seen l).
Proof.
  revert seen. induction l as [|a l IH]; intros seen; [reflexivity|]. cbn [map uniqueZ_from unique_from]. assert (existsb (Z.eqb (Z.of_nat a)) (map Z.of_nat seen) = existsb (Nat.eqb a) seen) as ->.
  { induction seen as [|b s IHs]; [reflexivity|]. cbn. rewrite IHs. f_equal. destruct (Nat.eqb_spec a b) as [->|N]; [apply Z.eqb_refl|apply Z.eqb_neq; lia]. }
  destruct (existsb _ seen); [apply IH|]. cbn [map]. f_equal. exact (IH (a :: seen)).
Qed.
Lemma unique_minus_one n : 0 < n -> uniqueZ_from [] (repeat (-1)%Z n) = [(-1)%Z].
Proof. destruct n as [|n]; [lia|]. intros _. cbn [repeat uniqueZ_from existsb]. f_equal. induction n as [|n IH]; [reflexivity|]. cbn. exact IH. Qed.
Lemma filter_map_comm {A B} (g : A -> B) (q : B -> bool) l : filter q (map g l) = map g (filter (fun a => q (g a)) l).
Proof. induction l as [|a l IH]; [reflexivity|]. cbn. destruct (q (g a)); cbn; now rewrite IH. Qed.

Section RoundTrip.
  Variables (f32 : Q -> Q).
  Lemma responses_back (pm w : bool) ev k p : p_times p <> [] -> length (p_widths p) = length (p_times p) -> sensors_ok (length (p_times p)) (p_pmts p) ->
    exists ws r, build_old_responses w (sums_of f32 ev (k, p)) (individual pm (sensors_of f32 ev k (p_pmts p)) (sums_of f32 ev (k, p))) = Ok (map f32 (p_times p), ws, r) /\
    (if w then ws = map f32 (p_widths p) else guessed_widths (map f32 (p_times p)) ws) /\
    (if pm then z_ids r = map Z.of_nat (r_ids (p_pmts p)) /\ rows (z_wfs r) = map (map f32) (rows (r_wfs (p_pmts p))) else z_ids r = [(-1)%Z] /\ rows (z_wfs r) = [map f32 (pmt_sum p)]) /\
    cols (z_wfs r) = length (p_times p).
  Proof.
    intros Ht Hw S. pose proof (pmt_responses_back f32 ev k p Ht Hw S) as B. pose proof S as [S1 S2 S3 S4]. set (sums := sums_of f32 ev (k, p)) in *. set (sens := sensors_of f32 ev k (p_pmts p)) in *.
    assert (L : length sums = length (p_times p)) by (unfold sums, sums_of; now rewrite map_length, seq_length). assert (Hn : 0 < length (p_times p)) by (destruct (p_times p); [easy|cbn; lia]).
    assert (T : map s_time sums = map f32 (p_times p)). { unfold sums, sums_of. cbn [fst snd]. rewrite map_map. cbn [s_time]. apply map_nth_seq. }
    assert (W : map s_bwidth sums = map f32 (p_widths p)). { unfold sums, sums_of. cbn [fst snd]. rewrite map_map. cbn [s_bwidth]. rewrite <- Hw. apply map_nth_seq. }
    assert (LS : length (pmt_sum p) = length (p_times p)) by (unfold pmt_sum, sum_over_sensors; now rewrite map_length, seq_length).
    assert (E : map s_ene sums = map f32 (pmt_sum p)). { unfold sums, sums_of. cbn [fst snd]. rewrite map_map. cbn [s_ene]. rewrite <- LS. apply map_nth_seq. }
    assert (WS : let ws := if w then map s_bwidth sums else fake_widths (map s_time sums) in if w then ws = map f32 (p_widths p) else guessed_widths (map f32 (p_times p)) ws).
    { cbv zeta. destruct w; [exact W|]. rewrite T. apply fake_guess. destruct (p_times p); [easy|discriminate]. }
    unfold build_old_responses. cbv zeta in *. rewrite T in *. set (ws := if w then map s_bwidth sums else fake_widths (map f32 (p_times p))) in *. clearbody ws. destruct pm; cbn [individual].
    - unfold build_pmt_responses in B. rewrite !map_map. cbn [of_sensor i_sensor i_ene]. rewrite <- (map_map r_sensor Z.of_nat). change (uniqueZ_from [] (map Z.of_nat (map r_sensor sens))) with (uniqueZ_from (map Z.of_nat []) (map Z.of_nat (map r_sensor sens))). rewrite unique_of_nat.
      fold (unique (map r_sensor sens)) in *. rewrite map_length. change (map (fun x => r_ene x) sens) with (map r_ene sens). destruct (reshape (length (unique (map r_sensor sens))) (length sums) (map r_ene sens)) as [m|] eqn:R; [|discriminate]. cbn [rbind] in *.
      unfold mk_responses in B. destruct (negb _) eqn:N; [discriminate|]. cbn [rbind] in B. assert (B2 : {| r_ids := unique (map r_sensor sens); r_wfs := m |} = round_responses f32 (p_pmts p)) by congruence.
      eexists. eexists. split; [reflexivity|]. split; [exact WS|]. unfold round_responses in B2. injection B2 as I ->. cbn [z_ids z_wfs rows cols]. rewrite I. repeat split; auto.
    - rewrite !map_map. cbn [of_sum i_sensor i_ene]. assert (map (fun _ : sum_row => (-1)%Z) sums = repeat (-1)%Z (length sums)) as ->. { clear. induction sums as [|a l IH]; [reflexivity|]. cbn. now rewrite IH. }
      rewrite unique_minus_one by lia. change (map (fun x => s_ene x) sums) with (map s_ene sums). rewrite E. unfold reshape. rewrite map_length, LS, L. cbn [length]. rewrite Nat.mul_1_l, Nat.eqb_refl. cbn [rbind chunks rows length]. rewrite Nat.eqb_refl. cbn [negb].
      eexists. eexists. split; [reflexivity|]. split; [exact WS|]. cbn [z_ids z_wfs rows cols]. split; [|reflexivity]. split; [reflexivity|]. f_equal. apply firstn_all2. rewrite map_length. lia.
  Qed.
  Lemma mk_ipeak_ok t w r s n : length t = n -> 0 < n -> cols (z_wfs r) = n -> (cols (r_wfs s) = 0 \/ cols (r_wfs s) = n) -> mk_ipeak t w r s = Ok {| ip_times := t; ip_widths := w; ip_pmts := r; ip_sipms := s |}.
  Proof.
    intros H1 H2 H3 H4. pose proof (mk_peak_ok t w {| r_ids := []; r_wfs := z_wfs r |} s n H1 H2 H3 H4) as H. unfold mk_peak, mk_ipeak in *. destruct (check_valid_input _ _ _); [reflexivity|discriminate].
  Qed.
  Lemma individual_peak pm k sums sens : of_peak_i k (individual pm sens sums) = individual pm (of_peak_r k sens) (of_peak_s k sums).
  Proof. unfold of_peak_i, individual, of_peak_r, of_peak_s. destruct pm; apply filter_map_comm. Qed.
  Lemma individual_event pm ev sums sens : of_event_i ev (individual pm sens sums) = individual pm (of_event_r ev sens) (of_event_s ev sums).
  Proof. unfold of_event_i, individual, of_event_r, of_event_s. destruct pm; apply filter_map_comm. Qed.

  Lemma rmap_rel {A B} (f : A -> result B) (R : A -> B -> Prop) l : (forall a, In a l -> exists b, f a = Ok b /\ R a b) -> exists m, rmap f l = Ok m /\ Forall2 R l m.
  Proof.
    induction l as [|a l IH]; intros H; [exists []; split; [reflexivity|constructor]|]. destruct (H a (or_introl eq_refl)) as (b & E & Hb). destruct IH as (m & Em & Fm); [intros; apply H; now right|].
    exists (b :: m). cbn [rmap]. rewrite E. cbn [rbind]. rewrite Em. split; [reflexivity|now constructor].
  Qed.
  Lemma forall2_seq {A B} (R : A -> B -> Prop) (l : list A) d m : Forall2 (fun i b => R (nth i l d) b) (seq 0 (length l)) m -> Forall2 R l m.
  Proof.
    intros H. assert (E : map (fun i => nth i l d) (seq 0 (length l)) = l). { pose proof (map_nth_seq (fun x : A => x) l d) as K. now rewrite map_id in K. }
    rewrite <- E. clear E. induction H; cbn [map]; constructor; auto.
  Qed.
  Lemma old_s1s_back (pm w : bool) ev l : (forall p, In p l -> s1_ok p) -> (N.of_nat (length l) <= 65536)%N ->
    exists out, old_s1s w (flat_map (sums_of f32 ev) (numbered 0 l)) (individual pm (flat_map (fun kp => sensors_of f32 ev (fst kp) (p_pmts (snd kp))) (numbered 0 l)) (flat_map (sums_of f32 ev) (numbered 0 l))) = Ok out /\ Forall2 (old_peak f32 pm w) l out.
  Proof.
    intros H B. unfold old_s1s. rewrite all_peak_numbers by (try assumption; intros p Hp; apply (H p Hp)). destruct l as [|p0 l0]; [exists []; split; [reflexivity|constructor]|]. set (l := p0 :: l0) in *.
    destruct (rmap_rel (fun n => rbind (build_old_responses w (of_peak_s n (flat_map (sums_of f32 ev) (numbered 0 l))) (of_peak_i n (individual pm (flat_map (fun kp => sensors_of f32 ev (fst kp) (p_pmts (snd kp))) (numbered 0 l)) (flat_map (sums_of f32 ev) (numbered 0 l))))) (fun '(t, ws, r) => mk_ipeak t ws r empty_responses))
      (fun i o => old_peak f32 pm w (nth i l p0) o) (seq 0 (length l))) as (out & E & F).
    - intros k Hk. apply in_seq in Hk. assert (E : nth_error l k = Some (nth k l p0)) by (apply nth_error_nth_in; lia). rewrite individual_peak, (peak_sums _ _ _ _ _ B E), (peak_sensors _ p_pmts _ _ _ _ B E).
      assert (Hp : s1_ok (nth k l p0)) by (apply H; apply nth_In; lia). destruct Hp as (H1 & H2 & H3 & H4). destruct (responses_back pm w ev k _ H1 H2 H3) as (ws & r & -> & A1 & A2 & A3). cbn [rbind].
      rewrite (mk_ipeak_ok _ _ _ _ (length (p_times (nth k l p0)))); [|apply map_length|destruct (p_times (nth k l p0)); [easy|cbn; lia]|exact A3|left; reflexivity].
      eexists. split; [reflexivity|]. unfold old_peak. cbn [ip_times ip_widths ip_pmts ip_sipms]. rewrite H4. cbn [empty_responses r_ids]. split; [reflexivity|]. split; [destruct w; exact A1|]. split; [exact A2|]. split; [reflexivity|easy].
    - exists out. split; [exact E|]. exact (forall2_seq _ l p0 out F).
  Qed.
  Lemma old_s2s_back (pm w : bool) ev l : (forall p, In p l -> s2_ok p) -> (N.of_nat (length l) <= 65536)%N ->
    exists out, old_s2s w (flat_map (sums_of f32 ev) (numbered 0 l)) (individual pm (flat_map (fun kp => sensors_of f32 ev (fst kp) (p_pmts (snd kp))) (numbered 0 l)) (flat_map (sums_of f32 ev) (numbered 0 l)))
              (flat_map (fun kp => sensors_of f32 ev (fst kp) (p_sipms (snd kp))) (numbered 0 l)) = Ok out /\ Forall2 (old_peak f32 pm w) l out.
  Proof.
    intros H B. unfold old_s2s. rewrite all_peak_numbers by (try assumption; intros p Hp; apply (H p Hp)). destruct l as [|p0 l0]; [exists []; split; [reflexivity|constructor]|]. set (l := p0 :: l0) in *.
    match goal with |- context [rmap ?f _] => destruct (rmap_rel f (fun i o => old_peak f32 pm w (nth i l p0) o) (seq 0 (length l))) as (out & E & F) end.
    - intros k Hk. apply in_seq in Hk. assert (E : nth_error l k = Some (nth k l p0)) by (apply nth_error_nth_in; lia). rewrite individual_peak, (peak_sums _ _ _ _ _ B E), (peak_sensors _ p_pmts _ _ _ _ B E), (peak_sensors _ p_sipms _ _ _ _ B E).
      assert (Hp : s2_ok (nth k l p0)) by (apply H; apply nth_In; lia). rewrite (sipm_responses_back _ _ _ _ Hp). destruct Hp as (H1 & H2 & H3 & H4). destruct (responses_back pm w ev k _ H1 H2 H3) as (ws & r & -> & A1 & A2 & A3). cbn [rbind].
      rewrite (mk_ipeak_ok _ _ _ _ (length (p_times (nth k l p0)))); [|apply map_length|destruct (p_times (nth k l p0)); [easy|cbn; lia]|exact A3|].
      2:{ destruct H4 as [->|S]; [now left|]. destruct (r_ids (p_sipms (nth k l p0))); [now left|right; apply S]. }
      eexists. split; [reflexivity|]. unfold old_peak. cbn [ip_times ip_widths ip_pmts ip_sipms]. split; [reflexivity|]. split; [destruct w; exact A1|]. split; [exact A2|]. destruct (r_ids (p_sipms (nth k l p0))) eqn:Ei; [split; [reflexivity|easy]|]. split; [exact Ei|reflexivity].
    - exists out. split; [exact E|]. exact (forall2_seq _ l p0 out F).
  Qed.
End RoundTrip.

(** The lazy reader: for each event requested, the peaks that were written, with what the file lacks filled in *)
Theorem C96_old_files f32 l run_events skip n s1pmt s2pmt widths :
  (forall ev pm, In (ev, pm) l -> pmap_ok pm) -> NoDup (map fst l) ->
  (forall ev, In ev run_events <-> exists pm, In (ev, pm) l /\ has_peaks pm) ->
  exists t d, store_pmaps f32 empty_tables l = Ok t /\
    load_old_lazy run_events {| o_tables := t; o_s1pmt := s1pmt; o_s2pmt := s2pmt; o_widths := widths |} skip n = Ok d /\
    Forall2 (fun ev e => fst e = ev /\ exists pm, In (ev, pm) l /\ Forall2 (old_peak f32 s1pmt widths) (s1s pm) (is1s (snd e)) /\ Forall2 (old_peak f32 s2pmt widths) (s2s pm) (is2s (snd e)))
            (firstn (match n with Some n => n | None => length run_events end) (skipn skip run_events)) d.
Proof.
  intros H N R. pose proof (store_all f32 l H) as St. set (t := {| t_s1 := sum_table f32 s1s l; t_s2 := sum_table f32 s2s l; t_si := sensor_table f32 s2s p_sipms l; t_s1pmt := sensor_table f32 s1s p_pmts l; t_s2pmt := sensor_table f32 s2s p_pmts l |}) in *.
  exists t. unfold load_old_lazy. cbn [o_tables o_s1pmt o_s2pmt o_widths]. pose proof (integrity_ok f32 l H run_events R) as I. fold t in I. rewrite I. cbn [rbind]. unfold slice. set (k := match n with Some n => n | None => length run_events end). replace (skip + k - skip) with k by lia.
  assert (Hall : forall ev, In ev (firstn k (skipn skip run_events)) -> exists pm, In (ev, pm) l /\ has_peaks pm).
  { intros ev Hev. apply R. rewrite <- (firstn_skipn skip run_events). apply in_or_app. right. rewrite <- (firstn_skipn k (skipn skip run_events)). apply in_or_app. now left. }
  match goal with |- context [rmap ?f ?evs] => destruct (rmap_rel f (fun ev e => fst e = ev /\ exists pm, In (ev, pm) l /\ Forall2 (old_peak f32 s1pmt widths) (s1s pm) (is1s (snd e)) /\ Forall2 (old_peak f32 s2pmt widths) (s2s pm) (is2s (snd e))) evs) as (d & E & F) end.
  2:{ exists d. auto. }
  intros ev Hev. destruct (Hall ev Hev) as (pm & Hin & Hp).
  destruct (of_event_s ev (t_s1 t) ++ of_event_s ev (t_s2 t)) as [|r rs] eqn:Er.
  - exfalso. assert (K : In ev (table_events t)) by (apply (in_table_events f32 l H); exists pm; auto). unfold table_events in K. rewrite <- map_app in K. apply in_map_iff in K. destruct K as (r & <- & K).
    assert (K2 : In r (of_event_s (s_event r) (t_s1 t) ++ of_event_s (s_event r) (t_s2 t))); [|rewrite Er in K2; destruct K2]. unfold of_event_s. rewrite <- filter_app. apply filter_In. split; [assumption|apply Z.eqb_refl].
  - assert (s_event r = ev) as ->. { assert (K : In r (of_event_s ev (t_s1 t) ++ of_event_s ev (t_s2 t))) by (rewrite Er; now left). unfold of_event_s in K. rewrite <- filter_app in K. apply filter_In in K. now apply Z.eqb_eq. }
    destruct (H ev pm Hin) as (A1 & A2 & A3 & A4). unfold old_event. cbn [o_tables o_widths]. unfold t. cbn [t_s1 t_s2 t_si t_s1pmt t_s2pmt]. rewrite !(event_sums f32 _ l ev pm N Hin), !(event_sensors f32 _ _ l ev pm N Hin).
    destruct (old_s1s_back f32 s1pmt widths ev (s1s pm) A1 A3) as (a & -> & Fa). cbn [rbind]. destruct (old_s2s_back f32 s2pmt widths ev (s2s pm) A2 A4) as (b & -> & Fb). cbn [rbind].
    eexists. split; [reflexivity|]. cbn [fst snd is1s is2s]. split; [reflexivity|]. exists pm. auto.
Qed.
Print Assumptions C96_old_files.

(** The reader that is not lazy reads files without widths alike, but no file without tables of individual PMTs *)
Theorem C96_eager_widths f32 l run_events :
  (forall ev pm, In (ev, pm) l -> pmap_ok pm) -> NoDup (map fst l) ->
  (forall ev, In ev run_events <-> exists pm, In (ev, pm) l /\ has_peaks pm) ->
  exists t d, store_pmaps f32 empty_tables l = Ok t /\
    load_old_eager run_events {| o_tables := t; o_s1pmt := true; o_s2pmt := true; o_widths := false |} = Ok d /\ NoDup (map fst d) /\ (forall ev, In ev (map fst d) <-> In ev run_events) /\
    forall ev e, In (ev, e) d -> exists pm, In (ev, pm) l /\ Forall2 (old_peak f32 true false) (s1s pm) (is1s e) /\ Forall2 (old_peak f32 true false) (s2s pm) (is2s e).
Proof.
  intros H N R. pose proof (store_all f32 l H) as St. set (t := {| t_s1 := sum_table f32 s1s l; t_s2 := sum_table f32 s2s l; t_si := sensor_table f32 s2s p_sipms l; t_s1pmt := sensor_table f32 s1s p_pmts l; t_s2pmt := sensor_table f32 s2s p_pmts l |}) in *.
  exists t. unfold load_old_eager. cbn [o_tables o_s1pmt o_s2pmt o_widths]. pose proof (integrity_ok f32 l H run_events R) as I. fold t in I. rewrite I. cbn [rbind].
  match goal with |- context [rmap ?f ?evs] => destruct (rmap_rel f (fun ev e => fst e = ev /\ exists pm, In (ev, pm) l /\ Forall2 (old_peak f32 true false) (s1s pm) (is1s (snd e)) /\ Forall2 (old_peak f32 true false) (s2s pm) (is2s (snd e))) evs) as (d & E & F) end.
  - intros ev Hev. apply nodup_In in Hev. apply (in_table_events f32 l H) in Hev. destruct Hev as (pm & Hin & Hp). rewrite !individual_event. unfold t. cbn [t_s1 t_s2 t_si t_s1pmt t_s2pmt].
    destruct (H ev pm Hin) as (A1 & A2 & A3 & A4). rewrite !(event_sums f32 _ l ev pm N Hin), !(event_sensors f32 _ _ l ev pm N Hin).
    assert (IL : forall x, iloc true x = Ok x) by (intros [|y x]; reflexivity). rewrite !IL. cbn [rbind].
    destruct (old_s1s_back f32 true false ev (s1s pm) A1 A3) as (a & -> & Fa). cbn [rbind]. destruct (old_s2s_back f32 true false ev (s2s pm) A2 A4) as (b & -> & Fb). cbn [rbind].
    eexists. split; [reflexivity|]. cbn [fst snd is1s is2s]. split; [reflexivity|]. exists pm. auto.
  - exists d. assert (M : map fst d = nodup Z.eq_dec (table_events t)). { clear E. induction F as [|? ? ? ? [<- _] ? IH]; [reflexivity|]. cbn [map]. now rewrite IH. }
    split; [exact St|]. split; [exact E|]. rewrite M. split; [apply NoDup_nodup|]. split.
    + intros ev. rewrite nodup_In, R. apply (in_table_events f32 l H).
    + intros ev e He. clear E M. induction F as [|x y xs ys [E K] F' IH]; [contradiction|]. destruct He as [->|He]; [|auto]. cbn [fst snd] in *. subst x. exact K.
Qed.
Print Assumptions C96_eager_widths.
Theorem C96_eager_refused run_events t widths : t_s1 t ++ t_s2 t <> [] -> (forall ev, In ev run_events <-> In ev (table_events t)) ->
  load_old_eager run_events {| o_tables := t; o_s1pmt := false; o_s2pmt := false; o_widths := widths |} = Err IndexError.
Proof.
  intros NE R. unfold load_old_eager. cbn [o_tables o_s1pmt o_s2pmt o_widths]. unfold check_file_integrity. rewrite (proj2 (subsetb_spec _ _)) by (intros x; apply R). rewrite (proj2 (subsetb_spec _ _)) by (intros x; apply R). cbn [andb rbind].
  destruct (nodup Z.eq_dec (table_events t)) as [|ev evs] eqn:E.
  - exfalso. destruct (t_s1 t ++ t_s2 t) as [|r rs] eqn:X; [easy|]. assert (K : In (s_event r) (table_events t)) by (unfold table_events; rewrite <- map_app, X; now left). apply (nodup_In Z.eq_dec) in K. now rewrite E in K.
  - cbn [rmap]. assert (K : In ev (table_events t)) by (apply (nodup_In Z.eq_dec); rewrite E; now left). rewrite !individual_event. unfold individual. destruct (of_event_s ev (t_s1 t)) as [|r rs] eqn:X1; cbn [map iloc rbind].
    + change (old_s1s widths [] []) with (@Ok (list ipeak) []). cbn [rbind]. destruct (of_event_s ev (t_s2 t)) as [|r rs] eqn:X2; cbn [map iloc rbind]; [|reflexivity]. exfalso.
      unfold table_events in K. rewrite <- map_app in K. apply in_map_iff in K. destruct K as (r & <- & K). assert (K2 : In r (of_event_s (s_event r) (t_s1 t) ++ of_event_s (s_event r) (t_s2 t))); [|rewrite X1, X2 in K2; destruct K2].
      unfold of_event_s. rewrite <- filter_app. apply filter_In. split; [assumption|apply Z.eqb_refl].
    + reflexivity.
Qed.
Print Assumptions C96_eager_refused.

Example C96_widths : fake_widths [100; 125; 150]%Q = [25; 25; 25]%Q /\ map Qred (fake_widths [100; 1090; 2095]%Q) = [1000; 1000; 1000]%Q /\ fake_widths [7]%Q = [1000]%Q.
Proof. repeat split; vm_compute; reflexivity. Qed.
Example C96_demo : exists t d, store_pmaps (fun x => x) empty_tables demo_pmaps = Ok t /\ load_old_lazy [7; 3]%Z {| o_tables := t; o_s1pmt := false; o_s2pmt := false; o_widths := false |} 1 None = Ok d /\
  map (fun e => map (fun p => (ip_times p, ip_widths p, z_ids (ip_pmts p), rows (z_wfs (ip_pmts p)))) (is2s (snd e))) d = [[([1; 2], [1; 1], [-1]%Z, [[2; 4]])]]%Q /\
  load_old_eager [7; 3]%Z {| o_tables := t; o_s1pmt := false; o_s2pmt := false; o_widths := true |} = Err IndexError.
Proof. eexists. eexists. split; [vm_compute; reflexivity|]. split; [vm_compute; reflexivity|]. split; vm_compute; reflexivity. Qed.
