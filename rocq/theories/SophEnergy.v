(** C70: the energy of the hits of an event, and the events that fail *)
From Verif Require Import Base PeaksModel PeaksSpec PeaksMore PeaksThr PmapioModel PmapioProofs FiltersModel HitsModel HitsProofs HitsProps KrModel KrProps SophModel SophSpec SophPeak SophProps.
Local Open Scope Q_scope.

(** ---------- energy ---------- *)
Lemma sumF_F2_scaled {A B} (f : A -> Q) (g : B -> Q) T e l m : Forall2 (fun a b => g b * T == f a * e) l m -> sumF g m * T == sumF f l * e.
Proof. induction 1 as [|a b l m H F IH]; [unfold sumF; cbn; ring|]. rewrite !sumF_cons, !Qmult_plus_distr_l. now rewrite H, IH. Qed.

Lemma sample_energy xys v t0 ch thr p k hs : 0 < thr -> 0 <= energy_at p k -> hits_of_sample xys v t0 ch thr p k hs ->
  sumF q_E hs <= energy_at p k /\ energy_at p k * thr <= sumF q_E hs * (thr + EPSILON).
Proof.
  intros Ht He [_ H]. pose proof eps_pos as Hp. cbv zeta in H. destruct H as [(_ & h & -> & _ & _ & _ & E)|(Hn & F)].
  - unfold sumF. cbn [map sumQ fold_right]. rewrite E. nra.
  - set (S := sumF snd (lit ch thr p k)) in *.
    assert (HS : thr <= S).
    { assert (A : forall s, In s (lit ch thr p k) -> thr <= snd s) by (intros s Hs; apply filter_In in Hs; now apply Qleb_le).
      destruct (lit ch thr p k) as [|s l] eqn:El; [easy|]. apply Qle_trans with (snd s); [apply A; now left|]. apply sumF_ge_one; [|now left]. intros b Hb. specialize (A b Hb). lra. }
    assert (E : sumF q_E hs * (S + EPSILON) == S * energy_at p k).
    { apply sumF_F2_scaled with (f := snd) (l := lit ch thr p k). clearbody S. clear -F. induction F as [|s h l m (_ & _ & H) F IH]; constructor; assumption. }
    clearbody S. clear -Ht HS He E Hp. revert Hp He E. generalize (sumF q_E hs) (energy_at p k) EPSILON. intros x e eps Hp He E.
    assert (P : 0 < S + eps) by lra.
    split; (apply Qmult_le_r with (S + eps); [assumption|]).
    + rewrite E. nra.
    + setoid_replace (x * (thr + eps) * (S + eps)) with (x * (S + eps) * (thr + eps)) by ring. rewrite E. assert (0 <= e * eps * (S - thr)) by (repeat apply Qmult_le_0_compat; lra). nra.
Qed.

Lemma samples_energy xys v t0 ch thr p ks groups : 0 < thr -> (forall k, In k ks -> 0 <= energy_at p k) -> Forall2 (hits_of_sample xys v t0 ch thr p) ks groups ->
  sumF q_E (concat groups) <= sumF (energy_at p) ks /\ sumF (energy_at p) ks * thr <= sumF q_E (concat groups) * (thr + EPSILON).
Proof.
  intros Ht He F. induction F as [|k g ks groups H F IH]; [unfold sumF; cbn; lra|]. cbn [concat]. rewrite sumF_app, sumF_cons.
  destruct (sample_energy _ _ _ _ _ _ _ _ Ht (He k (or_introl eq_refl)) H) as [A B]. destruct IH as [C D]; [intros; apply He; now right|]. split; [lra|]. rewrite !Qmult_plus_distr_l. lra.
Qed.

(** no negative samples *)
Definition not_negative (p : peak) : Prop := forall r x, In r (rows (r_wfs (p_pmts p))) -> In x r -> 0 <= x.

Lemma sumQ_nonneg l : (forall x, In x l -> 0 <= x) -> 0 <= sumQ l.
Proof. intros H. rewrite sumQ_sumF. now apply sumF_nonneg. Qed.
Lemma in_slice {A} a b (l : list A) x : In x (slice a b l) -> In x l.
Proof. intros H. apply In_nth_error in H. destruct H as (n & H). rewrite nth_error_slice in H. destruct (n <? b - a)%nat eqn:E in H; [|discriminate]. now apply nth_error_In in H. Qed.
Lemma slices_not_negative p sl p' : not_negative p -> rebin_peak_to_slices p sl = Ok p' -> not_negative p'.
Proof.
  intros H E. unfold rebin_peak_to_slices, rebin_slices in E. destruct (rmap (bin_time (p_times p) (r_wfs (p_pmts p))) sl) as [ts|]; [|discriminate]. cbn [rbind] in E.
  unfold mk_responses at 1 in E. cbn [rows] in E. destruct (negb _) in E; [discriminate|]. cbn [rbind] in E.
  assert (K : forall t w pm sp q, mk_peak t w pm sp = Ok q -> p_pmts q = pm) by (intros t w pm sp q; unfold mk_peak; destruct (check_valid_input t pm sp); [intros [= <-]; reflexivity|discriminate]).
  assert (E' : r_wfs (p_pmts p') = {| cols := length sl; rows := map (fun r => map (fun sl => sumQ (slice (fst sl) (snd sl) r)) sl) (rows (r_wfs (p_pmts p))) |}).
  { destruct (r_ids (p_sipms p)) in E; [apply K in E; now rewrite E|]. destruct (rmap _ sl) in E; [|discriminate]. cbn [rbind] in E. destruct (mk_responses _ _) in E; [|discriminate]. cbn [rbind] in E. apply K in E. now rewrite E. }
  intros r x Hr Hx. rewrite E' in Hr. cbn [rows] in Hr. apply in_map_iff in Hr. destruct Hr as (r0 & <- & Hr). apply in_map_iff in Hx. destruct Hx as (s & <- & _).
  apply sumQ_nonneg. intros y Hy. apply (H r0); [assumption|]. now apply in_slice in Hy.
Qed.
Lemma rebin_not_negative p md p' : not_negative p -> rebin_peak p md = Ok p' -> not_negative p'.
Proof. intros H E. destruct md as [f|x]; cbn in E; [destruct (f <=? 1)%Z; [now injection E as <-|]|]; eapply slices_not_negative; eassumption. Qed.

Lemma energy_at_total p : consistent p -> sumF (energy_at p) (seq 0 (length (p_times p))) == peak_energy p.
Proof.
  intros (M1 & _ & _ & _ & Lp & _). unfold peak_energy. change (sumF (energy_at p) (seq 0 (length (p_times p)))) with (sumF (fun k => sumF (fun r => nth k r 0) (rows (r_wfs (p_pmts p)))) (seq 0 (length (p_times p)))).
  rewrite sumF_swap. apply sumF_ext. intros r Hr. rewrite sumQ_sumF, (sumF_nth (fun x => x) 0 r). unfold is_mat in M1. rewrite Forall_forall in M1. rewrite (M1 r Hr), Lp. reflexivity.
Qed.
Lemma same_total_energy p p' : same_totals (r_wfs (p_pmts p)) (r_wfs (p_pmts p')) -> peak_energy p' == peak_energy p.
Proof. unfold same_totals, peak_energy. induction 1 as [|r r' l l' H F IH]; [reflexivity|]. now rewrite !sumF_cons, H, IH. Qed.

(** The hits of a peak have its energy. Machine precision is lost when the energy is shared. *)
Theorem C70_energy_of_a_peak xys v t0 ch greco thr i md p p' hs : consistent p -> not_negative p -> 0 < thr ->
  rebin_peak p md = Ok p' -> hits_of_peak xys v t0 ch greco thr i p' hs ->
  sumF q_E hs <= peak_energy p /\ peak_energy p * thr <= sumF q_E hs * (thr + EPSILON).
Proof.
  intros Hc Hn Ht Er (_ & _ & groups & F & ->). destruct (rebin_peak_spec p md Hc) as (p2 & Er2 & Hc' & _ & _ & _ & St & _). rewrite Er in Er2. injection Er2 as <-.
  pose proof (rebin_not_negative _ _ _ Hn Er) as Hn'. pose proof (same_total_energy _ _ St) as Et. rewrite <- (energy_at_total p' Hc') in Et.
  rewrite <- Et. apply (samples_energy xys v t0 ch thr p'); [assumption| |assumption].
  intros k Hk. apply in_seq in Hk. unfold energy_at. apply sumF_nonneg. intros r Hr. apply (Hn' r); [assumption|]. apply nth_In.
  destruct Hc' as (M1 & _ & _ & _ & Lp & _). unfold is_mat in M1. rewrite Forall_forall in M1. rewrite (M1 r Hr), Lp. lia.
Qed.
Print Assumptions C70_energy_of_a_peak.

(** ---------- events that fail ---------- *)
Theorem C70_nothing_selected xys v noise sw ct greco a b thr pm sel ev ts :
  picked 0 (s1_peaks sel) (s1s pm) [] -> picked 0 (s2_peaks sel) (s2s pm) [] ->
  sipms_as_hits xys v noise sw ct greco a b thr pm sel ev ts = Err IndexError.
Proof. intros H1 H2. unfold sipms_as_hits, all_hits, get_s1_time, np_where. now rewrite (picked_none _ _ _ H1), (picked_none _ _ _ H2). Qed.
Print Assumptions C70_nothing_selected.
Theorem C70_no_s2_selected xys v noise sw ct greco a b thr pm sel ev ts t0 :
  start_of_drift pm sel t0 -> picked 0 (s2_peaks sel) (s2s pm) [] ->
  sipms_as_hits xys v noise sw ct greco a b thr pm sel ev ts = Err ValueError.
Proof. intros H1 H2. unfold sipms_as_hits, all_hits. now rewrite (start_found _ _ _ H1), (picked_is _ _ _ H2). Qed.
Print Assumptions C70_no_s2_selected.
(** a selected S2 without SiPMs *)
Theorem C70_no_sipms xys v noise sw ct greco md thr pm sel ev ts t0 i p rest :
  start_of_drift pm sel t0 -> picked 0 (s2_peaks sel) (s2s pm) ((i, p) :: rest) -> consistent p -> r_ids (p_sipms p) = [] ->
  sipms_as_hits xys v noise sw ct greco (fst (args_of md)) (snd (args_of md)) thr pm sel ev ts = Err IndexError.
Proof.
  intros H1 H2 Hc Hs. unfold sipms_as_hits, all_hits. rewrite (start_found _ _ _ H1). cbn [rbind]. rewrite (picked_is _ _ _ H2). cbn [rmap]. unfold peak_hits. rewrite rebin_any_args.
  destruct (rebin_peak_spec p md Hc) as (p' & -> & _ & _ & Ei & _). cbn [rbind]. rewrite Ei, Hs. reflexivity.
Qed.
Print Assumptions C70_no_sipms.

(** the arguments given as they are declared and documented, rebin_method = the method and rebin_slices = the number, fail on every event
    that has a selected S2 *)
Theorem C70_keyword_refuted xys v noise sw ct greco m x thr pm sel ev ts t0 i p rest :
  start_of_drift pm sel t0 -> picked 0 (s2_peaks sel) (s2s pm) ((i, p) :: rest) ->
  sipms_as_hits xys v noise sw ct greco (Method m) (Number x) thr pm sel ev ts = Err TypeError.
Proof. intros H1 H2. unfold sipms_as_hits, all_hits. rewrite (start_found _ _ _ H1). cbn [rbind]. rewrite (picked_is _ _ _ H2). reflexivity. Qed.
Print Assumptions C70_keyword_refuted.
