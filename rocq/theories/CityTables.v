(** C74: the tables and the counters of a city speak of the same events, in the same order *)
From Coq Require Import List Bool Arith ZArith String Lia.
Import ListNotations.
From Verif Require Import DataflowModel DataflowSpec LoopProofs CityModel CitySpec CityProofs CityDoes CityProps.

(** a field of a written row *)
Definition field {V} (i : nat) (x : @obj V) : option V := match x with Args l => nth_error l i | _ => None end.

Section C74.
Context {V : Type}.
Variable truth is_none : V -> bool.
Variable some_index : V.
Variable effect : nat -> list V -> option exc.
Notation operation := (list V -> res V).
Notation operations := (list V -> res (list V)).
Notation action := (@action V).
Notation program := (@program V).

(** ---------- a program without failures ---------- *)
Lemma for_each_ok {E} (p : E -> program unit) evs l : for_each p evs = (l, None) -> l = flat_map (fun e => fst (p e)) evs /\ forall e, In e evs -> exists a, p e = (a, Ret tt).
Proof using.
  revert l. induction evs as [|e evs IH]; intros l; cbn [for_each flat_map]; [intros H; injection H as <-; split; [reflexivity|easy]|].
  destruct (p e) as [a [[]|ex]] eqn:Ep; [|discriminate]. destruct (for_each p evs) as [b r]. intros H. injection H as <- ->. destruct (IH b eq_refl) as (-> & H). cbn [fst].
  split; [reflexivity|]. intros x [<-|Hx]; [eauto|auto].
Qed.
(** a program that fails has done all for the events before the one that fails, and nothing for those after it *)
Theorem C73_failure {E} (p : E -> program unit) evs l ex : for_each p evs = (l, Some ex) ->
  exists before bad after a b, evs = before ++ bad :: after /\ for_each p before = (a, None) /\ p bad = (b, Raise ex) /\ l = a ++ b.
Proof using.
  revert l. induction evs as [|e evs IH]; intros l; cbn [for_each]; [discriminate|]. destruct (p e) as [a [[]|ex']] eqn:Ep.
  - destruct (for_each p evs) as [b r]. intros H. injection H as <- ->. destruct (IH b eq_refl) as (be & bad & af & x & y & -> & H2 & H3 & ->).
    exists (e :: be), bad, af, (a ++ x), y. cbn [for_each]. rewrite Ep, H2. rewrite app_assoc. auto.
  - intros H. injection H as <- ->. exists [], e, evs, [], a. auto.
Qed.

Lemma flat_map_kept {E A} (f : E -> list A) (sel : E -> bool) g evs : (forall e, In e evs -> f e = if sel e then [g e] else []) -> flat_map f evs = map g (filter sel evs).
Proof using.
  induction evs as [|e evs IH]; intros H; [reflexivity|]. cbn [flat_map filter]. rewrite (H e) by now left. rewrite IH by (intros; apply H; now right). destruct (sel e); reflexivity.
Qed.
Lemma rows_flat {E} t (f : E -> list action) evs : rows t (flat_map f evs) = flat_map (fun e => rows t (f e)) evs.
Proof using. induction evs as [|e evs IH]; [reflexivity|]. cbn [flat_map]. rewrite <- IH. apply flat_map_app. Qed.
Lemma added_flat {E} t (f : E -> list action) evs : added t (flat_map f evs) = flat_map (fun e => added t (f e)) evs.
Proof using. induction evs as [|e evs IH]; [reflexivity|]. cbn [flat_map]. rewrite <- IH. apply flat_map_app. Qed.
Lemma map_flat {E A B} (g : A -> B) (f : E -> list A) evs : map g (flat_map f evs) = flat_map (fun e => map g (f e)) evs.
Proof using. induction evs as [|e evs IH]; [reflexivity|]. cbn [flat_map]. now rewrite map_app, IH. Qed.

Lemma rows_kept {E A} t (p : E -> program unit) (sel : E -> bool) (g : list V -> A) h evs : (forall e, In e evs -> map g (rows t (fst (p e))) = if sel e then [h e] else []) ->
  map g (rows t (flat_map (fun e => fst (p e)) evs)) = map h (filter sel evs).
Proof using. intros H. rewrite rows_flat, map_flat. now apply flat_map_kept. Qed.
Lemma added_kept {E} t (p : E -> program unit) (sel : E -> bool) h evs : (forall e, In e evs -> added t (fst (p e)) = if sel e then [h e] else []) ->
  added t (flat_map (fun e => fst (p e)) evs) = map h (filter sel evs).
Proof using. intros H. rewrite added_flat. now apply flat_map_kept. Qed.
Lemma counted_kept {E} t (p : E -> program unit) (sel : E -> bool) evs : (forall e, In e evs -> counted t (fst (p e)) = if sel e then 1 else 0) ->
  counted t (flat_map (fun e => fst (p e)) evs) = List.length (filter sel evs).
Proof using.
  induction evs as [|e evs IH]; intros H; [reflexivity|]. cbn [flat_map filter]. unfold counted in *. rewrite filter_app, app_length, (H e) by now left. rewrite IH by (intros; apply H; now right). destruct (sel e); reflexivity.
Qed.
Lemma selected_kept {E} t b (p : E -> program unit) (sel : E -> bool) evs : (forall e, In e evs -> selected t b (fst (p e)) = if sel e then 1 else 0) ->
  selected t b (flat_map (fun e => fst (p e)) evs) = List.length (filter sel evs).
Proof using.
  induction evs as [|e evs IH]; intros H; [reflexivity|]. cbn [flat_map filter]. unfold selected in *. rewrite filter_app, app_length, (H e) by now left. rewrite IH by (intros; apply H; now right). destruct (sel e); reflexivity.
Qed.

(** ---------- what a program that succeeds has done ---------- *)
Lemma ok_call {A} (r : res A) (f : A -> program unit) a : bind (call r) f = (a, Ret tt) -> exists v, r = Ret v /\ f v = (a, Ret tt).
Proof using. unfold call. destruct r as [v|]; cbn [bind]; [|discriminate]. destruct (f v) as [b q] eqn:E. intros H. injection H as <- ->. eauto. Qed.
Lemma ok_act x (f : unit -> program unit) a : bind (act x) f = (a, Ret tt) -> exists b, a = x :: b /\ f tt = (b, Ret tt).
Proof using. unfold act. cbn [bind]. destruct (f tt) as [b q] eqn:E. intros H. injection H as <- ->. eauto. Qed.
Lemma ok_act_end x a : act (V := V) x = (a, Ret tt) -> a = [x].
Proof using. unfold act. intros H. now injection H as <-. Qed.
Lemma ok_write t row (f : unit -> program unit) a : bind (write effect t row) f = (a, Ret tt) -> exists b, a = Write t row :: b /\ f tt = (b, Ret tt).
Proof using. unfold write. destruct (effect t row); cbn [bind]; [discriminate|]. destruct (f tt) as [b q] eqn:E. intros H. injection H as <- ->. eauto. Qed.
Lemma ok_write_end t row a : write effect t row = (a, Ret tt) -> a = [Write t row].
Proof using. unfold write. destruct (effect t row); intros H; [discriminate|now injection H as <-]. Qed.
Lemma ok_selected id v (p : program unit) a : if_selected truth id v p = (a, Ret tt) -> exists b, a = Select id (truth v) :: b /\ (if truth v then p else done) = (b, Ret tt).
Proof using. apply ok_act. Qed.
Lemma ok_seq (p q : program unit) a : bind p (fun _ => q) = (a, Ret tt) -> exists b c, p = (b, Ret tt) /\ q = (c, Ret tt) /\ a = b ++ c.
Proof using. destruct p as [b [[]|]]; cbn [bind]; [|discriminate]. destruct q as [c r]. intros H. injection H as <- ->. eauto. Qed.
Lemma ok_done a : done (V := V) = (a, Ret tt) -> a = [].
Proof using. intros H. now injection H as <-. Qed.
End C74.

Ltac undo H := repeat lazymatch type of H with
  | bind (call _) _ = _ => let v := fresh "v" in let E := fresh "Ev" in apply ok_call in H; destruct H as (v & E & H); cbv beta in H
  | bind (act _) _ = _ => let b := fresh "b" in apply ok_act in H; destruct H as (b & -> & H); cbv beta in H
  | bind (number _) _ = _ => unfold number in H
  | bind (row_event _ _ _ _) _ = _ => unfold row_event in H
  | bind (write _ _ _) _ = _ => let b := fresh "b" in apply ok_write in H; destruct H as (b & -> & H); cbv beta in H
  | act _ = _ => apply ok_act_end in H; subst
  | number _ = _ => unfold number in H
  | row_event _ _ _ _ = _ => unfold row_event in H
  | write _ _ _ = _ => apply ok_write_end in H; subst
  | if_selected _ _ _ _ = _ => let b := fresh "b" in apply ok_selected in H; destruct H as (b & -> & H)
  | done = _ => apply ok_done in H; subst
  | two ?l _ = _ => destruct l as [|? [|? [|? ?]]]; cbn [two] in H; try discriminate H
  | three ?l _ = _ => destruct l as [|? [|? [|? [|? ?]]]]; cbn [three] in H; try discriminate H
  | four ?l _ = _ => destruct l as [|? [|? [|? [|? [|? ?]]]]]; cbn [four] in H; try discriminate H
  end.

Ltac finish H := repeat match goal with |- exists _, _ => eexists end; reflexivity.

Section Cities.
Context {V : Type}.
Variable truth is_none : V -> bool.
Variable some_index : V.
Variable effect : nat -> list V -> option exc.
Notation operation := (list V -> res V).
Notation operations := (list V -> res (list V)).
Notation action := (@action V).
Notation program := (@program V).

(** ---------- from the program to the run ---------- *)
Notation actions p evs := (flat_map (fun e => fst (p e)) evs).
Lemma observe {E} (p : E -> program unit) range events r R o : runs_as p range events r R -> r = inl o -> snd (for_each p (py_slice_z (fst range) (snd range) None events)) = None ->
  let evs := py_slice_z (fst range) (snd range) None events in
  writes_as o (actions p evs) /\ R o (actions p evs) /\ forall e, In e evs -> exists a, p e = (a, Ret tt).
Proof using.
  intros H -> N evs. fold evs in H, N. unfold runs_as in H. fold evs in H. destruct (for_each p evs) as [l ex] eqn:F. cbn [snd] in N. subst ex.
  destruct (for_each_ok p evs l F) as (-> & S). destruct H as (H1 & _ & H2). auto.
Qed.
Lemma calls_kept {E A} (p : E -> program unit) o t (sel : E -> bool) (g : @obj V -> A) h evs : writes_as o (actions p evs) ->
  (forall e, In e evs -> map (fun r => g (Args r)) (rows t (fst (p e))) = if sel e then [h e] else []) -> map g (calls t (o_trace o)) = map h (filter sel evs).
Proof using. intros W H. rewrite (W t), map_map. now apply rows_kept. Qed.
Lemma rows_are {E} (p : E -> program unit) o t (sel : E -> bool) (h : E -> list V) evs : writes_as o (actions p evs) ->
  (forall e, In e evs -> rows t (fst (p e)) = if sel e then [h e] else []) -> calls t (o_trace o) = map (fun e => Args (h e)) (filter sel evs).
Proof using. intros W H. rewrite (W t), <- (map_map h Args). f_equal. rewrite rows_flat. now apply flat_map_kept. Qed.
Lemma rows_number {E} (p : E -> program unit) o t (sel : E -> bool) evs : writes_as o (actions p evs) ->
  (forall e, In e evs -> List.length (rows t (fst (p e))) = if sel e then 1 else 0) -> List.length (calls t (o_trace o)) = List.length (filter sel evs).
Proof using.
  intros W H. rewrite (W t), map_length, rows_flat. clear W. induction evs as [|e evs IH]; [reflexivity|]. cbn [flat_map filter]. rewrite app_length, (H e) by now left. rewrite IH by (intros; apply H; now right). destruct (sel e); reflexivity.
Qed.
Lemma count_is {E} (p : E -> program unit) o id (sel : E -> bool) evs : counts_as o (actions p evs) id -> (forall e, In e evs -> counted id (fst (p e)) = if sel e then 1 else 0) ->
  results id (o_trace o) = [RCount (List.length (filter sel evs))].
Proof using. intros C H. rewrite C. do 2 f_equal. now apply counted_kept. Qed.
Lemma select_is {E} (p : E -> program unit) o id (yes no : E -> bool) evs : selects_as o (actions p evs) id ->
  (forall e, In e evs -> selected id true (fst (p e)) = (if yes e then 1 else 0) /\ selected id false (fst (p e)) = if no e then 1 else 0) ->
  results id (o_trace o) = [RPassed (List.length (filter yes evs)) (List.length (filter no evs))].
Proof using. intros C H. rewrite C. do 2 f_equal; apply selected_kept; intros; now apply H. Qed.
Lemma list_is {E} (p : E -> program unit) o id (sel : E -> bool) h evs : lists_as o (actions p evs) id -> (forall e, In e evs -> added id (fst (p e)) = if sel e then [h e] else []) ->
  results id (o_trace o) = [RAcc (Args (map h (filter sel evs)))].
Proof using. intros C H. rewrite C. do 3 f_equal. now apply added_kept. Qed.
Lemma filter_true {E} (l : list E) : filter (fun _ => true) l = l.
Proof using. induction l; cbn; congruence. Qed.
Lemma calls_all {E A} (p : E -> program unit) o t (g : @obj V -> A) h evs : writes_as o (actions p evs) ->
  (forall e, In e evs -> map (fun r => g (Args r)) (rows t (fst (p e))) = [h e]) -> map g (calls t (o_trace o)) = map h evs.
Proof using. intros W H. rewrite <- (filter_true evs). now apply (calls_kept p). Qed.
Lemma rows_all {E} (p : E -> program unit) o t (h : E -> list V) evs : writes_as o (actions p evs) -> (forall e, In e evs -> rows t (fst (p e)) = [h e]) ->
  calls t (o_trace o) = map (fun e => Args (h e)) evs.
Proof using. intros W H. rewrite <- (filter_true evs). now apply (rows_are p). Qed.
Lemma number_all {E} (p : E -> program unit) o t evs : writes_as o (actions p evs) -> (forall e, In e evs -> List.length (rows t (fst (p e))) = 1) -> List.length (calls t (o_trace o)) = List.length evs.
Proof using. intros W H. rewrite <- (filter_true evs). now apply (rows_number p). Qed.
Lemma count_all {E} (p : E -> program unit) o id evs : counts_as o (actions p evs) id -> (forall e, In e evs -> counted id (fst (p e)) = 1) -> results id (o_trace o) = [RCount (List.length evs)].
Proof using. intros W H. rewrite <- (filter_true evs). now apply (count_is p). Qed.
Lemma list_all {E} (p : E -> program unit) o id h evs : lists_as o (actions p evs) id -> (forall e, In e evs -> added id (fst (p e)) = [h e]) -> results id (o_trace o) = [RAcc (Args (map h evs))].
Proof using. intros W H. rewrite <- (filter_true evs). now apply (list_is p). Qed.
(** the event was selected by this filter *)
Definition accepted {E} (p : E -> program unit) (id : nat) (e : E) : bool := selected id true (fst (p e)) =? 1.

(** ---------- what is done for an event ---------- *)
Definition pmaps_done (e : waveforms) (above full : V) (pmap : V) : list action :=
  [Count r_events_in; Write t_indices_filter [w_event e; above]; Select r_over_thr (truth above)] ++
  (if truth above then [Write t_pmap_filter [w_event e; full]; Select r_full_pmap (truth full)] ++
     (if truth full then [Write t_pmaps [pmap; w_event e]; Count r_events_out; Add r_evtnum_list (w_event e); Write t_events [w_run e; w_event e; w_time e]; Write t_trigger [w_type e; w_channels e]] else []) else []).
Lemma pmaps_ok calibrate_sipms check_indices build_pmap check_pmap e ccwfs s1 s2 sipm a :
  pmaps_program truth effect calibrate_sipms check_indices build_pmap check_pmap e ccwfs s1 s2 sipm = (a, Ret tt) ->
  exists above full pmap, Count r_events_in :: a = pmaps_done e above full pmap.
Proof using.
  unfold pmaps_program, pmaps_done. intros H. undo H. exists v. destruct (truth v); undo H; [|exists v, v; reflexivity].
  exists v2, v1. destruct (truth v2); undo H; reflexivity.
Qed.
Section Irene.
Variables (mask deconv_calibrate zero_suppress : operations) (deconv calibrate_sipms check_indices build_pmap check_pmap : operation).
Variables (mcrd_rebin charge_fluctuation sim_sipm discretize sum_pmts : operation).
Lemma irene_ok e a : irene_event truth effect mask deconv_calibrate zero_suppress deconv calibrate_sipms check_indices build_pmap check_pmap e = (a, Ret tt) ->
  exists above full pmap, a = pmaps_done e above full pmap.
Proof using. unfold irene_event. intros H. undo H. eapply pmaps_ok. exact H. Qed.
Lemma hypathia_ok e a : hypathia_event truth effect mask zero_suppress calibrate_sipms check_indices build_pmap check_pmap mcrd_rebin charge_fluctuation sim_sipm discretize sum_pmts e = (a, Ret tt) ->
  exists above full pmap, a = pmaps_done e above full pmap.
Proof using. unfold hypathia_event. intros H. undo H. eapply pmaps_ok. exact H. Qed.
End Irene.

Section Hits.
Variables (classify passed pointlike sipms_as_hits enough_hits merge_nn correct cluster : operation).
Lemma dorothea_ok e a : dorothea_event truth effect classify passed pointlike e = (a, Ret tt) ->
  exists f k, a = [Count r_events_in; Write t_s12_filter [p_event e; f]; Select r_selection (truth f)] ++
    (if truth f then [Count r_events_out; Add r_evtnum_list (p_event e); Write t_kdst [k]; Write t_events [p_run e; p_event e; p_time e]] else []).
Proof using.
  unfold dorothea_event, classified. intros H. undo H. exists v0. destruct (truth v0); undo H; [exists v1|exists v0]; reflexivity.
Qed.
Lemma sophronia_ok e a : sophronia_event truth effect classify passed pointlike sipms_as_hits enough_hits merge_nn correct cluster e = (a, Ret tt) ->
  exists f k valid hits, a = [Count r_events_in; Write t_s12_filter [p_event e; f]; Select r_selection (truth f)] ++
    (if truth f then [Count r_events_out; Write t_kdst [k]; Write t_valid_hit [p_event e; valid]; Select r_hits_selection (truth valid)] ++
       (if truth valid then [Write t_hits [hits]] else []) ++ [Add r_evtnum_list (p_event e); Write t_events [p_run e; p_event e; p_time e]] else []).
Proof using.
  unfold sophronia_event, classified. intros H. undo H. exists v0. destruct (truth v0); undo H; [|exists v0, v0, v0; reflexivity].
  apply ok_seq in H. destruct H as (a1 & a2 & H1 & H & ->). apply ok_seq in H. destruct H as (a3 & a4 & H2 & H & ->). undo H. undo H1. undo H2. exists v1, v3.
  destruct (truth v3); undo H2; [exists v6|exists v3]; reflexivity.
Qed.
Variables (drop_external threshold_hits has_hits copy_energy sort_hits has_tracks summary change_type : operation) (tracks : operations).
Variables (cut_sensors drop_sensors nonempty deconvolve add_info : operation).
Definition tracks_done (e : hits_of) (some info full hits table : V) : list action :=
  [Write t_hits_filter [h_event e; some]; Select r_hits_passed (truth some)] ++
  (if truth some then [Write t_summary [info]; Write t_topology_filter [h_event e; full]; Write t_hits [hits]; Select r_topology (truth full)] ++ (if truth full then [Write t_tracks [table]] else []) else []).
Lemma tracks_ok e hits a : tracks_program truth effect has_hits copy_energy sort_hits has_tracks summary change_type tracks e hits = (a, Ret tt) ->
  exists some info full thits table, a = tracks_done e some info full thits table.
Proof using.
  unfold tracks_program, tracks_done. intros H. undo H. exists v. destruct (truth v); undo H; [|exists v, v, v, v; reflexivity].
  apply ok_seq in H. destruct H as (a1 & a2 & H1 & H & ->). undo H1. undo H. apply ok_seq in H. destruct H as (a3 & a4 & H2 & H & ->). undo H2. undo H.
  exists v6, v5, v7, v1. destruct (truth v5); undo H; reflexivity.
Qed.
Lemma esmeralda_ok e a : esmeralda_event truth effect correct drop_external threshold_hits has_hits copy_energy sort_hits has_tracks summary change_type tracks e = (a, Ret tt) ->
  exists some info full thits table, a = Count r_events_in :: tracks_done e some info full thits table ++ [Write t_kdst [h_kdst e]; Write t_events [h_run e; h_event e; h_time e]; Add r_evtnum_list (h_event e); Count r_events_out].
Proof using.
  unfold esmeralda_event. intros H. undo H. apply ok_seq in H. destruct H as (a1 & a2 & H1 & H & ->). undo H. apply tracks_ok in H1. destruct H1 as (x1 & x2 & x3 & x4 & x5 & ->). exists x1, x2, x3, x4, x5. reflexivity.
Qed.
Lemma isaura_ok e a : isaura_event truth is_none effect has_hits copy_energy sort_hits has_tracks summary change_type tracks e = (a, Ret tt) ->
  exists some info full thits table, a = [Count r_events_in; Add r_evtnum_list (h_event e); Count r_events_out] ++ tracks_done e some info full thits table ++ [Write t_events [h_run e; h_event e; h_time e]] ++
    (if is_none (h_kdst e) then [] else [Write t_kdst [h_kdst e]]).
Proof using.
  unfold isaura_event, kdst_if_any. intros H. undo H. apply ok_seq in H. destruct H as (a1 & a2 & H1 & H & ->). undo H. apply tracks_ok in H1. destruct H1 as (x1 & x2 & x3 & x4 & x5 & ->). exists x1, x2, x3, x4, x5.
  destruct (is_none (h_kdst e)); undo H; reflexivity.
Qed.
Lemma beersheba_ok e a : beersheba_event truth is_none effect correct threshold_hits cut_sensors drop_sensors nonempty deconvolve add_info e = (a, Ret tt) ->
  exists hits some deconv, a = [Count r_events_in; Write t_hits [hits]; Write t_nohits_filter [h_event e; some]; Select r_events_pass (truth some)] ++
    (if truth some then [Count r_events_out; Add r_evtnum_list (h_event e); Write t_deconv [deconv]] ++ (if is_none (h_kdst e) then [] else [Write t_kdst [h_kdst e]]) ++ [Write t_events [h_run e; h_event e; h_time e]] else []).
Proof using.
  unfold beersheba_event, kdst_if_any. intros H. undo H. exists v0, v3. destruct (truth v3); undo H; [|exists v0; reflexivity]. exists v5.
  apply ok_seq in H. destruct H as (a1 & a2 & H1 & H & ->). undo H. destruct (is_none (h_kdst e)); undo H1; reflexivity.
Qed.
End Hits.

Section Simulation.
Variables (sim_pmt : operations) (sim_sipm emulate_trigger trigger_pass deconv : operation).
Variables (has_response find_signal has_signal trigger_times calc_buffers order : operation) (time_extremes bin_pmts bin_sipms : operations).
Lemma diomira_ok e a : diomira_event truth effect sim_pmt sim_sipm emulate_trigger trigger_pass e = (a, Ret tt) ->
  exists ok pmt blr sipm, a = [Count r_events_in; Write t_trigger_filter [w_event e; ok]; Select r_selection (truth ok)] ++
    (if truth ok then [Add r_evtnum_list (w_event e); Write t_pmt [pmt]; Write t_blr [blr]; Write t_sipm [sipm]; Write t_events [w_run e; w_event e; w_time e]] else []).
Proof using.
  unfold diomira_event. intros H. undo H. exists v2, v, v0. destruct (truth v2); undo H; [exists v3|exists v2]; reflexivity.
Qed.
Lemma buffy_ok e a : buffy_event truth effect has_response find_signal has_signal trigger_times calc_buffers order time_extremes bin_pmts bin_sipms e = (a, Ret tt) ->
  exists ok some times buffers, a = [Count r_events_in; Write t_detected [s_event e; ok]; Select r_events_pass (truth ok)] ++
    (if truth ok then [Write t_signal_filter [s_event e; some]; Select r_signal (truth some)] ++ (if truth some then [Write t_buffers [s_event e; times; buffers]; Add r_evtnum_list (s_event e)] else []) else []).
Proof using.
  unfold buffy_event, buffers_program. intros H. undo H. exists v. destruct (truth v); undo H; [|exists v, v, v; reflexivity]. exists v7.
  destruct (truth v7); undo H; [exists v8, v10|exists v, v]; reflexivity.
Qed.
End Simulation.

(** ---------- the tables ---------- *)
(** a table of decisions: the event, and what was decided *)
Notation decisions t o := (map (fun x => (field 0 x, option_map truth (field 1 x))) (calls t (o_trace o))).
Ltac each S := let e := fresh "e" in let He := fresh "He" in let H := fresh "H" in
  intros e He; pose proof (S e He) as H; repeat match type of H with ex _ => let x := fresh in destruct H as [x H] end; unfold accepted; rewrite H; unfold pmaps_done, tracks_done;
  repeat match goal with |- context [truth ?v] => let T := fresh "T" in destruct (truth v) eqn:T end; repeat split; cbn; repeat match goal with T : truth _ = _ |- _ => rewrite T; clear T end; reflexivity.
Ltac shape S ok := let e := fresh in let He := fresh in intros e He; destruct (S e He) as (? & ->); cbn [fst]; apply ok.

Theorem C74_irene mask deconv_calibrate zero_suppress deconv calibrate_sipms check_indices build_pmap check_pmap range events o :
  gives 2 mask -> gives 4 deconv_calibrate -> gives 3 zero_suppress ->
  let program := irene_event truth effect mask deconv_calibrate zero_suppress deconv calibrate_sipms check_indices build_pmap check_pmap in
  let evs := py_slice_z (fst range) (snd range) None events in
  city range (irene truth some_index effect mask deconv_calibrate zero_suppress deconv calibrate_sipms check_indices build_pmap check_pmap) (map wf_item events) = inl o ->
  snd (for_each program evs) = None ->
  exists above full : waveforms -> bool,
  let first := filter above evs in
  let out := filter (fun e => above e && full e) evs in
  results r_events_in (o_trace o) = [RCount (List.length evs)] /\
  results r_over_thr (o_trace o) = [RPassed (List.length first) (List.length (filter (fun e => negb (above e)) evs))] /\
  results r_full_pmap (o_trace o) = [RPassed (List.length out) (List.length (filter (fun e => above e && negb (full e)) evs))] /\
  results r_events_out (o_trace o) = [RCount (List.length out)] /\
  results r_evtnum_list (o_trace o) = [RAcc (Args (map w_event out))] /\
  decisions t_indices_filter o = map (fun e => (Some (w_event e), Some (above e))) evs /\
  decisions t_pmap_filter o = map (fun e => (Some (w_event e), Some (full e))) first /\
  map (field 1) (calls t_pmaps (o_trace o)) = map (fun e => Some (w_event e)) out /\
  calls t_events (o_trace o) = map (fun e => Args [w_run e; w_event e; w_time e]) out /\
  calls t_trigger (o_trace o) = map (fun e => Args [w_type e; w_channels e]) out.
Proof using.
  intros G1 G2 G3 p evs C N. destruct (observe p range events _ _ o (C73_irene truth some_index effect _ _ _ _ _ _ _ _ G1 G2 G3 range events) C N) as (W & (R1 & R2 & R3 & R4 & R5) & S).
  fold evs in W, R1, R2, R3, R4, R5, S. assert (K : forall e, In e evs -> exists above full pmap, fst (p e) = pmaps_done e above full pmap).
  { intros e He. destruct (S e He) as (a & Ea). rewrite Ea. exact (irene_ok _ _ _ _ _ _ _ _ e a Ea). }
  exists (accepted p r_over_thr), (accepted p r_full_pmap). cbv zeta.
  split; [apply (count_all p); [assumption|each K]|].
  split; [apply (select_is p); [assumption|each K]|].
  split; [apply (select_is p); [assumption|each K]|].
  split; [apply (count_is p); [assumption|each K]|].
  split; [apply (list_is p); [assumption|each K]|].
  split; [apply (calls_all p); [assumption|each K]|].
  split; [apply (calls_kept p); [assumption|each K]|].
  split; [apply (calls_kept p); [assumption|each K]|].
  split; [apply (rows_are p); [assumption|each K]|apply (rows_are p); [assumption|each K]].
Qed.

Theorem C74_hypathia mask zero_suppress calibrate_sipms check_indices build_pmap check_pmap mcrd_rebin charge_fluctuation sim_sipm discretize sum_pmts range events o :
  gives 2 mask -> gives 3 zero_suppress ->
  let program := hypathia_event truth effect mask zero_suppress calibrate_sipms check_indices build_pmap check_pmap mcrd_rebin charge_fluctuation sim_sipm discretize sum_pmts in
  let evs := py_slice_z (fst range) (snd range) None events in
  city range (hypathia truth some_index effect mask zero_suppress calibrate_sipms check_indices build_pmap check_pmap sim_sipm mcrd_rebin charge_fluctuation sum_pmts discretize) (map wf_item events) = inl o ->
  snd (for_each program evs) = None ->
  exists above full : waveforms -> bool,
  let first := filter above evs in
  let out := filter (fun e => above e && full e) evs in
  results r_events_in (o_trace o) = [RCount (List.length evs)] /\
  results r_over_thr (o_trace o) = [RPassed (List.length first) (List.length (filter (fun e => negb (above e)) evs))] /\
  results r_full_pmap (o_trace o) = [RPassed (List.length out) (List.length (filter (fun e => above e && negb (full e)) evs))] /\
  results r_events_out (o_trace o) = [RCount (List.length out)] /\
  results r_evtnum_list (o_trace o) = [RAcc (Args (map w_event out))] /\
  decisions t_indices_filter o = map (fun e => (Some (w_event e), Some (above e))) evs /\
  decisions t_pmap_filter o = map (fun e => (Some (w_event e), Some (full e))) first /\
  map (field 1) (calls t_pmaps (o_trace o)) = map (fun e => Some (w_event e)) out /\
  calls t_events (o_trace o) = map (fun e => Args [w_run e; w_event e; w_time e]) out /\
  calls t_trigger (o_trace o) = map (fun e => Args [w_type e; w_channels e]) out.
Proof using.
  intros G1 G3 p evs C N. destruct (observe p range events _ _ o (C73_hypathia truth some_index effect _ _ _ _ _ _ _ _ _ _ _ G1 G3 range events) C N) as (W & (R1 & R2 & R3 & R4 & R5) & S).
  fold evs in W, R1, R2, R3, R4, R5, S. assert (K : forall e, In e evs -> exists above full pmap, fst (p e) = pmaps_done e above full pmap).
  { intros e He. destruct (S e He) as (a & Ea). rewrite Ea. exact (hypathia_ok _ _ _ _ _ _ _ _ _ _ _ e a Ea). }
  exists (accepted p r_over_thr), (accepted p r_full_pmap). cbv zeta.
  split; [apply (count_all p); [assumption|each K]|].
  split; [apply (select_is p); [assumption|each K]|].
  split; [apply (select_is p); [assumption|each K]|].
  split; [apply (count_is p); [assumption|each K]|].
  split; [apply (list_is p); [assumption|each K]|].
  split; [apply (calls_all p); [assumption|each K]|].
  split; [apply (calls_kept p); [assumption|each K]|].
  split; [apply (calls_kept p); [assumption|each K]|].
  split; [apply (rows_are p); [assumption|each K]|apply (rows_are p); [assumption|each K]].
Qed.

Theorem C74_dorothea classify passed pointlike range events o :
  let program := dorothea_event truth effect classify passed pointlike in
  let evs := py_slice_z (fst range) (snd range) None events in
  city range (dorothea truth some_index effect classify passed pointlike) (map pmap_item events) = inl o ->
  snd (for_each program evs) = None ->
  exists good : pmap_of -> bool,
  let out := filter good evs in
  results r_events_in (o_trace o) = [RCount (List.length evs)] /\
  results r_selection (o_trace o) = [RPassed (List.length out) (List.length (filter (fun e => negb (good e)) evs))] /\
  results r_events_out (o_trace o) = [RCount (List.length out)] /\
  results r_evtnum_list (o_trace o) = [RAcc (Args (map p_event out))] /\
  decisions t_s12_filter o = map (fun e => (Some (p_event e), Some (good e))) evs /\
  List.length (calls t_kdst (o_trace o)) = List.length out /\
  calls t_events (o_trace o) = map (fun e => Args [p_run e; p_event e; p_time e]) out.
Proof using.
  intros p evs C N. destruct (observe p range events _ _ o (C73_dorothea truth some_index effect _ _ _ range events) C N) as (W & (R1 & R2 & R3 & R4) & S).
  fold evs in W, R1, R2, R3, R4, S.
  assert (K : forall e, In e evs -> exists f k, fst (p e) = _) by (intros e He; destruct (S e He) as (a & Ea); rewrite Ea; exact (dorothea_ok _ _ _ e a Ea)).
  exists (accepted p r_selection). cbv zeta.
  split; [apply (count_all p); [assumption|each K]|].
  split; [apply (select_is p); [assumption|each K]|].
  split; [apply (count_is p); [assumption|each K]|].
  split; [apply (list_is p); [assumption|each K]|].
  split; [apply (calls_all p); [assumption|each K]|].
  split; [apply (rows_number p); [assumption|each K]|apply (rows_are p); [assumption|each K]].
Qed.

Theorem C74_sophronia classify passed pointlike sipms_as_hits enough_hits merge_nn correct cluster range events o :
  let program := sophronia_event truth effect classify passed pointlike sipms_as_hits enough_hits merge_nn correct cluster in
  let evs := py_slice_z (fst range) (snd range) None events in
  city range (sophronia truth some_index effect classify passed sipms_as_hits enough_hits merge_nn correct cluster pointlike) (map pmap_item events) = inl o ->
  snd (for_each program evs) = None ->
  exists good enough : pmap_of -> bool,
  let out := filter good evs in
  results r_events_in (o_trace o) = [RCount (List.length evs)] /\
  results r_selection (o_trace o) = [RPassed (List.length out) (List.length (filter (fun e => negb (good e)) evs))] /\
  results r_hits_selection (o_trace o) = [RPassed (List.length (filter (fun e => good e && enough e) evs)) (List.length (filter (fun e => good e && negb (enough e)) evs))] /\
  results r_events_out (o_trace o) = [RCount (List.length out)] /\
  results r_evtnum_list (o_trace o) = [RAcc (Args (map p_event out))] /\
  decisions t_s12_filter o = map (fun e => (Some (p_event e), Some (good e))) evs /\
  decisions t_valid_hit o = map (fun e => (Some (p_event e), Some (enough e))) out /\
  List.length (calls t_kdst (o_trace o)) = List.length out /\
  List.length (calls t_hits (o_trace o)) = List.length (filter (fun e => good e && enough e) evs) /\
  calls t_events (o_trace o) = map (fun e => Args [p_run e; p_event e; p_time e]) out.
Proof using.
  intros p evs C N. destruct (observe p range events _ _ o (C73_sophronia truth some_index effect _ _ _ _ _ _ _ _ range events) C N) as (W & (R1 & R2 & R3 & R4 & R5) & S).
  fold evs in W, R1, R2, R3, R4, R5, S.
  assert (K : forall e, In e evs -> exists f k v h, fst (p e) = _) by (intros e He; destruct (S e He) as (a & Ea); rewrite Ea; exact (sophronia_ok _ _ _ _ _ _ _ _ e a Ea)).
  exists (accepted p r_selection), (accepted p r_hits_selection). cbv zeta.
  split; [apply (count_all p); [assumption|each K]|].
  split; [apply (select_is p); [assumption|each K]|].
  split; [apply (select_is p); [assumption|each K]|].
  split; [apply (count_is p); [assumption|each K]|].
  split; [apply (list_is p); [assumption|each K]|].
  split; [apply (calls_all p); [assumption|each K]|].
  split; [apply (calls_kept p); [assumption|each K]|].
  split; [apply (rows_number p); [assumption|each K]|].
  split; [apply (rows_number p); [assumption|each K]|apply (rows_are p); [assumption|each K]].
Qed.

(** every event is listed; the summary, the hits and the decision on the tracks are written for the events with hits, the tracks for those with tracks *)
Definition tracks_tables (o : outcome (@obj V)) (evs : list hits_of) (some full : hits_of -> bool) : Prop :=
  let first := filter some evs in
  results r_events_in (o_trace o) = [RCount (List.length evs)] /\
  results r_events_out (o_trace o) = [RCount (List.length evs)] /\
  results r_evtnum_list (o_trace o) = [RAcc (Args (map h_event evs))] /\
  results r_hits_passed (o_trace o) = [RPassed (List.length first) (List.length (filter (fun e => negb (some e)) evs))] /\
  results r_topology (o_trace o) = [RPassed (List.length (filter (fun e => some e && full e) evs)) (List.length (filter (fun e => some e && negb (full e)) evs))] /\
  decisions t_hits_filter o = map (fun e => (Some (h_event e), Some (some e))) evs /\
  decisions t_topology_filter o = map (fun e => (Some (h_event e), Some (full e))) first /\
  List.length (calls t_summary (o_trace o)) = List.length first /\
  List.length (calls t_hits (o_trace o)) = List.length first /\
  List.length (calls t_tracks (o_trace o)) = List.length (filter (fun e => some e && full e) evs) /\
  calls t_events (o_trace o) = map (fun e => Args [h_run e; h_event e; h_time e]) evs.

Theorem C74_esmeralda correct drop_external threshold_hits has_hits copy_energy sort_hits has_tracks summary change_type tracks range events o : gives 3 tracks ->
  let program := esmeralda_event truth effect correct drop_external threshold_hits has_hits copy_energy sort_hits has_tracks summary change_type tracks in
  let evs := py_slice_z (fst range) (snd range) None events in
  city range (esmeralda truth some_index effect correct drop_external threshold_hits has_hits copy_energy sort_hits has_tracks summary change_type tracks) (map hits_item events) = inl o ->
  snd (for_each program evs) = None ->
  exists some full, tracks_tables o evs some full /\ calls t_kdst (o_trace o) = map (fun e => Args [h_kdst e]) evs.
Proof using.
  intros G3 p evs C N. destruct (observe p range events _ _ o (C73_esmeralda truth some_index effect _ _ _ _ _ _ _ _ _ _ G3 range events) C N) as (W & (R1 & R2 & R3 & R4 & R5) & S).
  fold evs in W, R1, R2, R3, R4, R5, S.
  assert (K : forall e, In e evs -> exists x1 x2 x3 x4 x5, fst (p e) = _) by (intros e He; destruct (S e He) as (a & Ea); rewrite Ea; exact (esmeralda_ok _ _ _ _ _ _ _ _ _ _ e a Ea)).
  exists (accepted p r_hits_passed), (accepted p r_topology). unfold tracks_tables. cbv zeta.
  split; [|apply (rows_all p); [assumption|each K]].
  split; [apply (count_all p); [assumption|each K]|].
  split; [apply (count_all p); [assumption|each K]|].
  split; [apply (list_all p); [assumption|each K]|].
  split; [apply (select_is p); [assumption|each K]|].
  split; [apply (select_is p); [assumption|each K]|].
  split; [apply (calls_all p); [assumption|each K]|].
  split; [apply (calls_kept p); [assumption|each K]|].
  split; [apply (rows_number p); [assumption|each K]|].
  split; [apply (rows_number p); [assumption|each K]|].
  split; [apply (rows_number p); [assumption|each K]|apply (rows_all p); [assumption|each K]].
Qed.

Ltac each_kdst S := let e := fresh "e" in let He := fresh "He" in let H := fresh "H" in
  intros e He; pose proof (S e He) as H; repeat match type of H with ex _ => let x := fresh in destruct H as [x H] end; unfold accepted; rewrite H; unfold pmaps_done, tracks_done;
  destruct (is_none (h_kdst e));
  repeat match goal with |- context [truth ?v] => let T := fresh "T" in destruct (truth v) eqn:T end; repeat split; cbn; repeat match goal with T : truth _ = _ |- _ => rewrite T; clear T end; reflexivity.

Theorem C74_isaura has_hits copy_energy sort_hits has_tracks summary change_type tracks range events o : gives 3 tracks ->
  let program := isaura_event truth is_none effect has_hits copy_energy sort_hits has_tracks summary change_type tracks in
  let evs := py_slice_z (fst range) (snd range) None events in
  city range (isaura truth is_none some_index effect has_hits copy_energy sort_hits has_tracks summary change_type tracks) (map hits_item events) = inl o ->
  snd (for_each program evs) = None ->
  exists some full, tracks_tables o evs some full /\ calls t_kdst (o_trace o) = map (fun e => Args [h_kdst e]) (filter (fun e => negb (is_none (h_kdst e))) evs).
Proof using.
  intros G3 p evs C N. destruct (observe p range events _ _ o (C73_isaura truth is_none some_index effect _ _ _ _ _ _ _ G3 range events) C N) as (W & (R1 & R2 & R3 & R4 & R5) & S).
  fold evs in W, R1, R2, R3, R4, R5, S.
  assert (K : forall e, In e evs -> exists x1 x2 x3 x4 x5, fst (p e) = _) by (intros e He; destruct (S e He) as (a & Ea); rewrite Ea; exact (isaura_ok _ _ _ _ _ _ _ e a Ea)).
  exists (accepted p r_hits_passed), (accepted p r_topology). unfold tracks_tables. cbv zeta.
  split; [|apply (rows_are p); [assumption|each_kdst K]].
  split; [apply (count_all p); [assumption|each_kdst K]|].
  split; [apply (count_all p); [assumption|each_kdst K]|].
  split; [apply (list_all p); [assumption|each_kdst K]|].
  split; [apply (select_is p); [assumption|each_kdst K]|].
  split; [apply (select_is p); [assumption|each_kdst K]|].
  split; [apply (calls_all p); [assumption|each_kdst K]|].
  split; [apply (calls_kept p); [assumption|each_kdst K]|].
  split; [apply (rows_number p); [assumption|each_kdst K]|].
  split; [apply (rows_number p); [assumption|each_kdst K]|].
  split; [apply (rows_number p); [assumption|each_kdst K]|apply (rows_all p); [assumption|each_kdst K]].
Qed.

Theorem C74_beersheba correct threshold_hits cut_sensors drop_sensors nonempty deconvolve add_info range events o :
  let program := beersheba_event truth is_none effect correct threshold_hits cut_sensors drop_sensors nonempty deconvolve add_info in
  let evs := py_slice_z (fst range) (snd range) None events in
  city range (beersheba truth is_none some_index effect correct threshold_hits cut_sensors drop_sensors nonempty deconvolve add_info) (map hits_item events) = inl o ->
  snd (for_each program evs) = None ->
  exists some : hits_of -> bool,
  let out := filter some evs in
  results r_events_in (o_trace o) = [RCount (List.length evs)] /\
  results r_events_pass (o_trace o) = [RPassed (List.length out) (List.length (filter (fun e => negb (some e)) evs))] /\
  results r_events_out (o_trace o) = [RCount (List.length out)] /\
  results r_evtnum_list (o_trace o) = [RAcc (Args (map h_event out))] /\
  decisions t_nohits_filter o = map (fun e => (Some (h_event e), Some (some e))) evs /\
  List.length (calls t_hits (o_trace o)) = List.length evs /\
  List.length (calls t_deconv (o_trace o)) = List.length out /\
  calls t_kdst (o_trace o) = map (fun e => Args [h_kdst e]) (filter (fun e => some e && negb (is_none (h_kdst e))) evs) /\
  calls t_events (o_trace o) = map (fun e => Args [h_run e; h_event e; h_time e]) out.
Proof using.
  intros p evs C N. destruct (observe p range events _ _ o (C73_beersheba truth is_none some_index effect _ _ _ _ _ _ _ range events) C N) as (W & (R1 & R2 & R3 & R4) & S).
  fold evs in W, R1, R2, R3, R4, S.
  assert (K : forall e, In e evs -> exists x1 x2 x3, fst (p e) = _) by (intros e He; destruct (S e He) as (a & Ea); rewrite Ea; exact (beersheba_ok _ _ _ _ _ _ _ e a Ea)).
  exists (accepted p r_events_pass). cbv zeta.
  split; [apply (count_all p); [assumption|each_kdst K]|].
  split; [apply (select_is p); [assumption|each_kdst K]|].
  split; [apply (count_is p); [assumption|each_kdst K]|].
  split; [apply (list_is p); [assumption|each_kdst K]|].
  split; [apply (calls_all p); [assumption|each_kdst K]|].
  split; [apply (number_all p); [assumption|each_kdst K]|].
  split; [apply (rows_number p); [assumption|each_kdst K]|].
  split; [apply (rows_are p); [assumption|each_kdst K]|apply (rows_are p); [assumption|each_kdst K]].
Qed.

Theorem C74_diomira sim_pmt sim_sipm emulate_trigger trigger_pass range events o : gives 2 sim_pmt ->
  let program := diomira_event truth effect sim_pmt sim_sipm emulate_trigger trigger_pass in
  let evs := py_slice_z (fst range) (snd range) None events in
  city range (diomira truth some_index effect sim_pmt sim_sipm emulate_trigger trigger_pass) (map wf_item events) = inl o ->
  snd (for_each program evs) = None ->
  exists good : waveforms -> bool,
  let out := filter good evs in
  results r_events_in (o_trace o) = [RCount (List.length evs)] /\
  results r_selection (o_trace o) = [RPassed (List.length out) (List.length (filter (fun e => negb (good e)) evs))] /\
  results r_evtnum_list (o_trace o) = [RAcc (Args (map w_event out))] /\
  decisions t_trigger_filter o = map (fun e => (Some (w_event e), Some (good e))) evs /\
  List.length (calls t_pmt (o_trace o)) = List.length out /\ List.length (calls t_blr (o_trace o)) = List.length out /\ List.length (calls t_sipm (o_trace o)) = List.length out /\
  calls t_events (o_trace o) = map (fun e => Args [w_run e; w_event e; w_time e]) out.
Proof using.
  intros G p evs C N. destruct (observe p range events _ _ o (C73_diomira truth some_index effect _ _ _ _ range events G) C N) as (W & (R1 & R2 & R3) & S).
  fold evs in W, R1, R2, R3, S.
  assert (K : forall e, In e evs -> exists x1 x2 x3 x4, fst (p e) = _) by (intros e He; destruct (S e He) as (a & Ea); rewrite Ea; exact (diomira_ok _ _ _ _ e a Ea)).
  exists (accepted p r_selection). cbv zeta.
  split; [apply (count_all p); [assumption|each K]|].
  split; [apply (select_is p); [assumption|each K]|].
  split; [apply (list_is p); [assumption|each K]|].
  split; [apply (calls_all p); [assumption|each K]|].
  do 3 (split; [apply (rows_number p); [assumption|each K]|]). apply (rows_are p); [assumption|each K].
Qed.

Theorem C74_buffy has_response find_signal has_signal trigger_times calc_buffers order time_extremes bin_pmts bin_sipms range events o : gives 2 time_extremes -> gives 2 bin_pmts -> gives 2 bin_sipms ->
  let program := buffy_event truth effect has_response find_signal has_signal trigger_times calc_buffers order time_extremes bin_pmts bin_sipms in
  let evs := py_slice_z (fst range) (snd range) None events in
  city range (buffy truth some_index effect has_response find_signal has_signal trigger_times calc_buffers order time_extremes bin_pmts bin_sipms) (map sensors_item events) = inl o ->
  snd (for_each program evs) = None ->
  exists seen signal : sensors_of -> bool,
  let first := filter seen evs in
  let out := filter (fun e => seen e && signal e) evs in
  results r_events_in (o_trace o) = [RCount (List.length evs)] /\
  results r_events_pass (o_trace o) = [RPassed (List.length first) (List.length (filter (fun e => negb (seen e)) evs))] /\
  results r_signal (o_trace o) = [RPassed (List.length out) (List.length (filter (fun e => seen e && negb (signal e)) evs))] /\
  results r_evtnum_list (o_trace o) = [RAcc (Args (map s_event out))] /\
  decisions t_detected o = map (fun e => (Some (s_event e), Some (seen e))) evs /\
  decisions t_signal_filter o = map (fun e => (Some (s_event e), Some (signal e))) first /\
  map (field 0) (calls t_buffers (o_trace o)) = map (fun e => Some (s_event e)) out.
Proof using.
  intros G1 G2 G3 p evs C N. destruct (observe p range events _ _ o (C73_buffy truth some_index effect _ _ _ _ _ _ _ _ _ range events G1 G2 G3) C N) as (W & (R1 & R2 & R3 & R4) & S).
  fold evs in W, R1, R2, R3, R4, S.
  assert (K : forall e, In e evs -> exists x1 x2 x3 x4, fst (p e) = _) by (intros e He; destruct (S e He) as (a & Ea); rewrite Ea; exact (buffy_ok _ _ _ _ _ _ _ _ _ e a Ea)).
  exists (accepted p r_events_pass), (accepted p r_signal). cbv zeta.
  split; [apply (count_all p); [assumption|each K]|].
  split; [apply (select_is p); [assumption|each K]|].
  split; [apply (select_is p); [assumption|each K]|].
  split; [apply (list_is p); [assumption|each K]|].
  split; [apply (calls_all p); [assumption|each K]|].
  split; [apply (calls_kept p); [assumption|each K]|apply (calls_kept p); [assumption|each K]].
Qed.
End Cities.
Print Assumptions C73_failure.
Print Assumptions C74_irene.
Print Assumptions C74_esmeralda.
Print Assumptions C74_buffy.
Print Assumptions C74_hypathia.
Print Assumptions C74_dorothea.
Print Assumptions C74_sophronia.
Print Assumptions C74_isaura.
Print Assumptions C74_beersheba.
Print Assumptions C74_diomira.
