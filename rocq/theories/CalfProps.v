(** C124: the files of the calibration cities *)
From Coq Require Import String.
From Verif Require Import Base ConfigModel TablesModel PeaksModel CalibModel BuffersModel HistModel IreneModel CalcModel.
From Verif Require Import FrunModel IsiModel JobModel JobProofs HaltBase HaltProofs HaltStop HaltStop2 CalfModel CalfSpec CalfProofs.
Local Open Scope nat_scope.

Lemma setup_names su : calibration_setup su -> List.length (su_names su) = List.length (su_branches su) /\ su_names su <> [].
Proof.
  intros [(bu & sq & db & mode & nb & nm & b & c & s & H)|[(mode & b & c & s & H)|(g & b & s & H)]].
  - unfold phyllis_setup in H. destruct (pmt_processing _ _ _ _ _ _) as [p|]; [|discriminate]. cbn [rbind] in H. destruct (valid_integral_limits _ _ _ _ _ _) as [[l d]|]; [|discriminate]. cbn [rbind] in H. injection H as <-. split; [reflexivity|discriminate].
  - unfold trude_setup in H. destruct mode; try discriminate; (destruct (valid_integral_limits _ _ _ _ _ _) as [[l d]|]; [|discriminate]); cbn [rbind] in H; injection H as <-; (split; [reflexivity|discriminate]).
  - injection H as <-. split; [reflexivity|discriminate].
Qed.
Lemma all_len edges bs events : forall accs accs', List.length accs = List.length bs -> all_events (W := rwf_event) edges bs accs events = Ok accs' -> List.length accs' = List.length bs.
Proof. intros accs accs' L H. apply all_gather in H; [|exact L]. apply Forall2_len in H. rewrite combine_length in H. lia. Qed.
Lemma nth_error_ext {A} (l : list A) : forall m, (forall k, nth_error l k = nth_error m k) -> l = m.
Proof. induction l as [|a l IH]; intros [|b m] H; [reflexivity|specialize (H 0); discriminate|specialize (H 0); discriminate|]. pose proof (H 0) as H0. cbn in H0. injection H0 as <-. f_equal. apply IH. intros k. apply (H (Datatypes.S k)). Qed.
Lemma names_all su (names : list string) hs : List.length names = List.length hs -> (Forall (fun x => List.length (snd x) = su_sensors su) (combine names hs) <-> Forall (fun h : list (list nat) => List.length h = su_sensors su) hs).
Proof.
  intros L. revert hs L. induction names as [|nm names IH]; intros [|h hs] L; try discriminate; [split; constructor|]. cbn [combine]. split; intros H; inversion H; subst; constructor; auto; apply IH; auto.
Qed.

Section Files.
  Context {S : Type}.
  Definition whole_file (su : setup) (sensors : option S) (events : list rwf_event) (hs : list (list (list nat))) : calf S :=
    {| cf_runs := map w_run events; cf_events := map w_event events; cf_spectra := map filled (combine (su_names su) hs); cf_sensors := sensors |}.
  Lemma fill_ends su sensors source f : List.length (su_names su) = List.length (su_branches su) ->
    (fill_file su sensors source no_calf = (f, Ok tt) <-> snd source = None /\ exists hs, complete (su_edges su) (su_sensors su) (su_branches su) (fst source) hs /\ f = whole_file su sensors (fst source) hs).
  Proof.
    intros Ln. unfold fill_file. rewrite exec_bind. destruct source as [events e]. cbn [fst snd]. set (z := repeat _ _). assert (Lz : List.length z = List.length (su_branches su)) by apply repeat_length.
    destruct (all_events (su_edges su) (su_branches su) z events) as [hs|x] eqn:A.
    - rewrite (send_ok su events z hs no_calf A). pose proof (all_len _ _ _ _ _ Lz A) as Lh. destruct e as [e|]; [split; [discriminate|intros [H _]; discriminate]|].
      rewrite exec_bind. destruct (writes_cases su (combine (su_names su) hs)) as [H|(b & x & a & E & H & N)].
      + rewrite writes_ok by exact H. cbn. split.
        * intros X. injection X as <-. split; [reflexivity|]. exists hs. split; [split; [exact A|]|destruct sensors; reflexivity]. now apply (names_all su (su_names su)) in H; [|congruence].
        * intros (_ & hs' & [A' _] & ->). fold z in A'. rewrite A in A'. injection A' as <-. unfold whole_file, copy_sensor_table, with_spectra, with_events, no_calf. cbn. destruct sensors; reflexivity.
      + rewrite E, writes_err by assumption. split; [discriminate|]. intros (_ & hs' & [A' F'] & _). fold z in A'. rewrite A in A'. injection A' as <-. exfalso. apply (names_all su (su_names su)) in F'; [|congruence]. rewrite E in F'. apply Forall_app in F'. destruct F' as [_ F']. inversion F'. now apply N.
    - destruct (send_err (S := S) su events z x no_calf A) as (b & w & a & acc & _ & _ & _ & E). rewrite E. split; [discriminate|]. intros (_ & hs & [A' _] & _). fold z in A'. congruence.
  Qed.
  Lemma spectra_nth names : forall hs k t, List.length names = List.length hs -> (nth_error (map filled (combine names hs)) k = Some t <-> exists nm h, nth_error names k = Some nm /\ nth_error hs k = Some h /\ t = (nm, [h])).
  Proof.
    induction names as [|nm names IH]; intros [|h hs] k t L; try discriminate.
    - destruct k; cbn; split; try discriminate; intros (a & b & H & _); discriminate.
    - destruct k; cbn; [|apply IH; now injection L]. split; [intros H; injection H as <-; eauto|]. intros (a & b & H1 & H2 & ->). injection H1 as <-. injection H2 as <-. reflexivity.
  Qed.
  Lemma summed_unique (f1 f2 f f' : calf S) : summed f1 f2 f -> summed f1 f2 f' -> f = f'.
  Proof.
    intros (A & B & C & D & E & F) (A' & B' & C' & D' & E' & F'). destruct f as [r ev sp se], f' as [r' ev' sp' se']. cbn [cf_runs cf_events cf_spectra cf_sensors] in *. f_equal; try congruence.
    apply (nth_error_ext). intros k. destruct (nth_error sp k) as [t|] eqn:T, (nth_error sp' k) as [t'|] eqn:T'; [| | |reflexivity].
    - assert (L : k < List.length sp) by (apply nth_error_Some; congruence).
      destruct (nth_error (cf_spectra f1) k) as [t1|] eqn:T1; [|apply nth_error_None in T1; lia]. destruct (nth_error (cf_spectra f2) k) as [t2|] eqn:T2; [|apply nth_error_None in T2; lia].
      destruct (F k t1 t2 t T1 T2 T) as (N1 & _ & h1 & h2 & h & X1 & X2 & X & Su). destruct (F' k t1 t2 t' T1 T2 T') as (N1' & _ & h1' & h2' & h' & X1' & X2' & X' & Su').
      rewrite X1 in X1'. rewrite X2 in X2'. injection X1' as <-. injection X2' as <-. rewrite (sum_unique _ _ _ _ Su' Su) in X'. destruct t, t'; cbn in *; congruence.
    - apply nth_error_None in T'. assert (k < List.length sp) by (apply nth_error_Some; congruence). lia.
    - apply nth_error_None in T. assert (k < List.length sp') by (apply nth_error_Some; congruence). lia.
  Qed.
  Lemma fill_jobs su s1 s2 g h f : List.length (su_names su) = List.length (su_branches su) ->
    (fill_file su s1 (gen_app g h) no_calf = (f, Ok tt) <-> exists f1 f2 : calf S, fill_file su s1 g no_calf = (f1, Ok tt) /\ fill_file su s2 h no_calf = (f2, Ok tt) /\ summed f1 f2 f).
  Proof.
    intros Ln. destruct g as [e1 [x|]]; cbn [gen_app].
    { rewrite fill_ends by exact Ln. split; [intros [H _]; discriminate|]. intros (f1 & f2 & H & _). apply fill_ends in H; [|exact Ln]. destruct H as [H _]. discriminate. }
    destruct h as [e2 x]. rewrite fill_ends by exact Ln. cbn [fst snd]. split.
    - intros (-> & hs & Cm & ->). apply complete_sum in Cm. destruct Cm as (hs1 & hs2 & C1 & C2 & L1 & L2 & Su). exists (whole_file su s1 e1 hs1), (whole_file su s2 e2 hs2). rewrite !fill_ends by exact Ln. cbn [fst snd].
      split; [split; [reflexivity|exists hs1; auto]|]. split; [split; [reflexivity|exists hs2; auto]|].
      assert (Lh : List.length hs1 = List.length (su_names su)) by (destruct C1 as [C1 _]; apply all_len in C1; [congruence|apply repeat_length]).
      unfold summed, whole_file. cbn [cf_runs cf_events cf_spectra cf_sensors]. rewrite !map_app, !map_length, !combine_length, L1, L2. repeat (split; [reflexivity|]).
      intros k t1 t2 t T1 T2 T. apply spectra_nth in T1; [|congruence]. apply spectra_nth in T2; [|congruence]. apply spectra_nth in T; [|congruence]. destruct T1 as (n1 & h1 & N1 & H1 & ->), T2 as (n2 & h2 & N2 & H2 & ->), T as (n0 & h0 & N0 & H0 & ->). cbn [fst snd].
      split; [congruence|]. split; [congruence|]. exists h1, h2, h0. eauto 6.
    - intros (f1 & f2 & F1 & F2 & Su). apply fill_ends in F1; [|exact Ln]. apply fill_ends in F2; [|exact Ln]. cbn [fst snd] in F1, F2. destruct F1 as (_ & hs1 & C1 & ->), F2 as (-> & hs2 & C2 & ->). split; [reflexivity|].
      assert (L1 : List.length hs1 = List.length (su_names su)) by (destruct C1 as [C1' _]; apply all_len in C1'; [congruence|apply repeat_length]).
      assert (L2 : List.length hs2 = List.length (su_names su)) by (destruct C2 as [C2' _]; apply all_len in C2'; [congruence|apply repeat_length]).
      pose proof Su as (A & B & C & D & E & F). cbn [whole_file cf_runs cf_events cf_spectra cf_sensors] in A, B, C, D, E, F. rewrite map_length, combine_length, L1, Nat.min_id in D.
      assert (G : exists hs, List.length hs = List.length (su_names su) /\ forall k h1 h2 h0, nth_error hs1 k = Some h1 -> nth_error hs2 k = Some h2 -> nth_error hs k = Some h0 -> nth_error (cf_spectra f) k = option_map (fun nm => (nm, [h0])) (nth_error (su_names su) k) /\ sum_of h1 h2 h0).
      { exists (map (fun t => hd [] (snd t)) (cf_spectra f)). rewrite map_length. split; [exact D|]. intros k h1 h2 h0 H1 H2 H0. rewrite nth_error_map in H0. destruct (nth_error (cf_spectra f) k) as [t|] eqn:T; [|discriminate]. cbn in H0.
        destruct (nth_error (su_names su) k) as [nm|] eqn:N; [|apply nth_error_None in N; assert (k < List.length (cf_spectra f)) by (apply nth_error_Some; congruence); lia].
        destruct (F k (nm, [h1]) (nm, [h2]) t) as (N1 & N2 & x1 & x2 & x & X1 & X2 & X & Sx); [apply spectra_nth; [congruence|eauto]|apply spectra_nth; [congruence|eauto]|exact T|]. cbn in X1, X2, N1. injection X1 as <-. injection X2 as <-. rewrite X in H0. cbn in H0. injection H0 as <-. split; [|exact Sx]. cbn. f_equal. destruct t; cbn in *. congruence. }
      destruct G as (hs & L & G). exists hs. split.
      + apply complete_sum. exists hs1, hs2. split; [exact C1|]. split; [exact C2|]. split; [congruence|]. split; [congruence|]. intros k h1 h2 h0 H1 H2 H0. now apply (G k).
      + apply (summed_unique _ _ _ _ Su). unfold summed, whole_file. cbn [cf_runs cf_events cf_spectra cf_sensors]. rewrite !map_app, !map_length, !combine_length, L, L1, L2. repeat (split; [reflexivity|]).
        intros k t1 t2 t T1 T2 T. apply spectra_nth in T1; [|congruence]. apply spectra_nth in T2; [|congruence]. apply spectra_nth in T; [|congruence]. destruct T1 as (n1 & h1 & N1 & H1 & ->), T2 as (n2 & h2 & N2 & H2 & ->), T as (n0 & h0 & N0 & H0 & ->). cbn [fst snd].
        split; [congruence|]. split; [congruence|]. exists h1, h2, h0. destruct (G k h1 h2 h0 H1 H2 H0). eauto 6.
  Qed.
End Files.

(** C124: the input of a calibration city shared out between two runs, by files or by ranges of events: it ends if and only if both end, and its file has the events of both and the sums of the spectra *)
Theorem C124_jobs : forall S su (sensors_of : string -> option S) open_file p1 p2, calibration_setup su -> p1 <> [] -> p2 <> [] ->
  forall f, ends_with (calibration_run su sensors_of open_file (0, None) (p1 ++ p2)) no_calf f <->
    exists f1 f2, ends_with (calibration_run su sensors_of open_file (0, None) p1) no_calf f1 /\ ends_with (calibration_run su sensors_of open_file (0, None) p2) no_calf f2 /\ summed f1 f2 f.
Proof.
  intros S su sensors_of open_file p1 p2 Hs H1 H2 f. destruct (setup_names su Hs) as [Ln _]. unfold ends_with, calibration_run. destruct p1 as [|a p1]; [congruence|]. destruct p2 as [|b p2]; [congruence|]. rewrite !ranged_all, wf_app.
  change ((a :: p1) ++ b :: p2) with (a :: (p1 ++ b :: p2)). cbv beta iota. apply fill_jobs. exact Ln.
Qed.
Theorem C124_ranges : forall S su (sensors_of : string -> option S) open_file paths a b c0, calibration_setup su -> a <= b -> match c0 with None => True | Some c => b < c end ->
  forall f, ends_with (calibration_run su sensors_of open_file (a, c0) paths) no_calf f <->
    exists f1 f2, ends_with (calibration_run su sensors_of open_file (a, Some b) paths) no_calf f1 /\ ends_with (calibration_run su sensors_of open_file (b, c0) paths) no_calf f2 /\ summed f1 f2 f.
Proof.
  intros S su sensors_of open_file paths a b c0 Hs H1 H2 f. destruct (setup_names su Hs) as [Ln _]. unfold ends_with, calibration_run. destruct paths as [|p paths]; [|rewrite (ranged_app _ a b c0 H1 H2); apply fill_jobs; exact Ln].
  split; [discriminate|]. intros (f1 & f2 & H & _). discriminate.
Qed.

(** ---- with the spectra of C101 ---- *)
Lemma one_map {W} (g : rwf_event -> W) edges bs w : forall accs, one_event edges (map (fun b ev => b (g ev)) bs) accs w = one_event edges bs accs (g w).
Proof.
  induction bs as [|b bs IH]; intros accs; [reflexivity|]. destruct accs as [|a accs]; [reflexivity|]. cbn [map one_event]. destruct (b (g w)) as [v|]; [|reflexivity]. cbn [rbind]. destruct (bin_waveforms v edges) as [h|]; [|reflexivity]. cbn [rbind]. destruct (add_broadcast a h); [|reflexivity]. cbn [rbind]. now rewrite IH.
Qed.
Lemma all_map {W} (g : rwf_event -> W) edges bs events : forall accs, all_events edges (map (fun b ev => b (g ev)) bs) accs events = all_events edges bs accs (map g events).
Proof. induction events as [|w events IH]; intros accs; [reflexivity|]. cbn [map all_events]. rewrite one_map. destruct (one_event _ _ _ _); [|reflexivity]. apply IH. Qed.
Lemma hist_all n hs : forall out, rmap (write_hist n) hs = Ok out <-> out = hs /\ Forall (fun h => List.length h = n) hs.
Proof.
  induction hs as [|h hs IH]; intros out; cbn [rmap]; [split; [intros X; injection X as <-; auto|intros [-> _]; reflexivity]|]. unfold write_hist at 1. destruct (Nat.eqb_spec (List.length h) n) as [E|E].
  - cbn [rbind]. destruct (rmap (write_hist n) hs) as [r|] eqn:R; cbn [rbind].
    + destruct (proj1 (IH r) eq_refl) as [-> F]. split; [intros X; injection X as <-; split; [reflexivity|now constructor]|intros [-> _]; reflexivity].
    + split; [discriminate|]. intros [-> F]. inversion F as [|? ? F1 F2]; subst. discriminate (proj2 (IH hs) (conj eq_refl F2)).
  - split; [discriminate|]. intros [_ F]. inversion F. congruence.
Qed.
Lemma complete_city {W} (g : rwf_event -> W) edges n bs events hs : complete edges n (map (fun b ev => b (g ev)) bs) events hs <-> calibration_city n edges bs (map g events) = Ok hs.
Proof.
  unfold complete, calibration_city. rewrite all_map, map_length. destruct (all_events _ _ _ _) as [out|]; cbn [rbind]; [|split; [intros [H _]; discriminate|discriminate]]. rewrite hist_all. split; [intros [H F]; injection H as ->; auto|intros [-> F]; auto].
Qed.
Lemma city_len {W} edges n (bs : list (@branch W)) events hs : calibration_city n edges bs events = Ok hs -> List.length hs = List.length bs.
Proof.
  unfold calibration_city. assert (G : forall l accs out, List.length accs = List.length bs -> all_events edges bs accs l = Ok out -> List.length out = List.length bs).
  { induction l as [|w l IH]; intros accs out L; cbn [all_events]; [intros X; now injection X as <-|]. destruct (one_event edges bs accs w) as [r|] eqn:R; [|discriminate]. cbn [rbind]. apply IH.
    clear IH. revert accs r L R. induction bs as [|b bs0 IHb]; intros [|a accs] r L; try discriminate; cbn [one_event]; [intros X; now injection X as <-|]. destruct (b w) as [v|]; [|discriminate]. cbn [rbind]. destruct (bin_waveforms v edges) as [h|]; [|discriminate]. cbn [rbind]. destruct (add_broadcast a h); [|discriminate]. cbn [rbind].
    destruct (one_event edges bs0 accs w) as [q|] eqn:Q; [|discriminate]. cbn [rbind]. intros X. injection X as <-. cbn. f_equal. apply (IHb accs q); [now injection L|exact Q]. }
  destruct (all_events _ _ _ _) as [out|] eqn:A; [|discriminate]. cbn [rbind]. intros H. apply hist_all in H. destruct H as [-> _]. apply (G _ _ _ (repeat_length _ _) A).
Qed.

(** C124: the files of phyllis, trude and berenice have the events of their input and the spectra of C101 *)
Theorem C124_phyllis : forall S butter sqrt db mode n_baseline n_maw b c s (sensors_of : string -> option S) open_file r first rest,
  let source := ranged r (wf_from_files open_file (first :: rest)) in let spectra := phyllis butter sqrt db mode n_baseline n_maw b c (pmt_wl s) in
  match phyllis_setup butter sqrt db mode n_baseline n_maw b c s with
  | Err e => forall events, spectra events = Err e
  | Ok su => forall f, ends_with (calibration_run su sensors_of open_file r (first :: rest)) no_calf f <->
      snd source = None /\ exists spe dark, spectra (map w_pmt (fst source)) = Ok [spe; dark] /\
      f = {| cf_runs := map w_run (fst source); cf_events := map w_event (fst source); cf_spectra := [("pmt_spe", [spe]); ("pmt_dark", [dark])]%string; cf_sensors := sensors_of first |}
  end.
Proof.
  intros S butter sqrt db mode n_baseline n_maw b c s sensors_of open_file r first rest. cbv zeta. unfold phyllis, phyllis_setup. destruct (pmt_processing _ _ _ _ _ _) as [proc|e]; [|cbn [rbind]; intros; reflexivity]. cbn [rbind].
  destruct (valid_integral_limits _ _ _ _ _ _) as [[light dark]|e]; [|cbn [rbind]; intros; reflexivity]. cbn [rbind]. intros f. unfold ends_with, calibration_run. rewrite fill_ends by reflexivity. cbn [su_edges su_sensors su_branches su_names]. set (source := ranged r _).
  pose proof (complete_city w_pmt (edges_of b) (List.length db) [fun ev => rbind (proc ev) (integrals (pmt_wl s) light); fun ev => rbind (proc ev) (integrals (pmt_wl s) dark)] (fst source)) as K. cbn [map] in K. split.
  - intros (N & hs & H & ->). split; [exact N|]. apply K in H. pose proof (city_len _ _ _ _ _ H) as L. destruct hs as [|spe [|dk [|]]]; try discriminate. exists spe, dk. split; [exact H|reflexivity].
  - intros (N & spe & dk & H & ->). split; [exact N|]. exists [spe; dk]. split; [now apply K|reflexivity].
Qed.
Theorem C124_trude : forall S mode b c s (sensors_of : string -> option S) open_file r first rest,
  let source := ranged r (wf_from_files open_file (first :: rest)) in let spectra := trude (n_sipm s) mode b c (sipm_wl s) in
  match trude_setup mode b c s with
  | Err e => forall events, spectra events = Err e
  | Ok su => forall f, ends_with (calibration_run su sensors_of open_file r (first :: rest)) no_calf f <->
      snd source = None /\ exists spe dark, spectra (map w_sipm (fst source)) = Ok [spe; dark] /\
      f = {| cf_runs := map w_run (fst source); cf_events := map w_event (fst source); cf_spectra := [("sipm_spe", [spe]); ("sipm_dark", [dark])]%string; cf_sensors := sensors_of first |}
  end.
Proof.
  intros S mode b c s sensors_of open_file r first rest. cbv zeta. unfold trude, trude_setup. set (source := ranged r _).
  assert (G : match rbind (valid_integral_limits 1000 (ic_number c) (ic_start c) (ic_width c) (ic_period c) (Z.of_nat (sipm_wl s))) (fun '(light, dark) =>
      Ok {| su_names := ["sipm_spe"; "sipm_dark"]%string; su_sensors := n_sipm s; su_edges := edges_of b; su_branches := [fun ev : rwf_event => rbind (sipm_processing mode (w_sipm ev)) (integrals (sipm_wl s) light); fun ev => rbind (sipm_processing mode (w_sipm ev)) (integrals (sipm_wl s) dark)] |}) with
    | Err e => forall events : list (list (list Z)), rbind (valid_integral_limits 1000 (ic_number c) (ic_start c) (ic_width c) (ic_period c) (Z.of_nat (sipm_wl s))) (fun '(light, dark) => calibration_city (n_sipm s) (edges_of b) [fun ev => rbind (sipm_processing mode ev) (integrals (sipm_wl s) light); fun ev => rbind (sipm_processing mode ev) (integrals (sipm_wl s) dark)] events) = Err e
    | Ok su => forall f, ends_with (calibration_run su sensors_of open_file r (first :: rest)) no_calf f <->
      snd source = None /\ exists spe dark, rbind (valid_integral_limits 1000 (ic_number c) (ic_start c) (ic_width c) (ic_period c) (Z.of_nat (sipm_wl s))) (fun '(light, dark) => calibration_city (n_sipm s) (edges_of b) [fun ev => rbind (sipm_processing mode ev) (integrals (sipm_wl s) light); fun ev => rbind (sipm_processing mode ev) (integrals (sipm_wl s) dark)] (map w_sipm (fst source))) = Ok [spe; dark] /\
      f = {| cf_runs := map w_run (fst source); cf_events := map w_event (fst source); cf_spectra := [("sipm_spe", [spe]); ("sipm_dark", [dark])]%string; cf_sensors := sensors_of first |}
    end).
  { destruct (valid_integral_limits _ _ _ _ _ _) as [[light dark]|e]; [|cbn [rbind]; intros; reflexivity]. cbn [rbind]. intros f. unfold ends_with, calibration_run. rewrite fill_ends by reflexivity. cbn [su_edges su_sensors su_branches su_names]. fold source.
    pose proof (complete_city w_sipm (edges_of b) (n_sipm s) [fun ev => rbind (sipm_processing mode ev) (integrals (sipm_wl s) light); fun ev => rbind (sipm_processing mode ev) (integrals (sipm_wl s) dark)] (fst source)) as K. cbn [map] in K. split.
    - intros (N & hs & H & ->). split; [exact N|]. apply K in H. pose proof (city_len _ _ _ _ _ H) as L. destruct hs as [|spe [|dk [|]]]; try discriminate. exists spe, dk. split; [exact H|reflexivity].
    - intros (N & spe & dk & H & ->). split; [exact N|]. exists [spe; dk]. split; [now apply K|reflexivity]. }
  destruct mode; try exact G. intros; reflexivity.
Qed.
Theorem C124_berenice : forall S gains b s su (sensors_of : string -> option S) open_file r first rest, berenice_setup gains b s = Ok su ->
  let source := ranged r (wf_from_files open_file (first :: rest)) in
  forall f, ends_with (calibration_run su sensors_of open_file r (first :: rest)) no_calf f <->
    snd source = None /\ exists adc mode median, berenice (n_sipm s) gains b (map w_sipm (fst source)) = Ok [adc; mode; median] /\
    f = {| cf_runs := map w_run (fst source); cf_events := map w_event (fst source); cf_spectra := [("adc", [adc]); ("mode", [mode]); ("median", [median])]%string; cf_sensors := sensors_of first |}.
Proof.
  intros S gains b s su sensors_of open_file r first rest Hs. injection Hs as <-. cbv zeta. set (source := ranged r _). intros f. unfold ends_with, calibration_run. rewrite fill_ends by reflexivity. cbn [su_edges su_sensors su_branches su_names]. fold source. unfold berenice.
  pose proof (complete_city w_sipm (edges_of b) (n_sipm s) [subtract_baseline BlsMode; fun ev => calibrate_sipms BlsMode ev gains; fun ev => calibrate_sipms BlsMedian ev gains] (fst source)) as K. cbn [map] in K. split.
  - intros (N & hs & H & ->). split; [exact N|]. apply K in H. pose proof (city_len _ _ _ _ _ H) as L. destruct hs as [|x [|y [|z [|]]]]; try discriminate. exists x, y, z. split; [exact H|reflexivity].
  - intros (N & x & y & z & H & ->). split; [exact N|]. exists [x; y; z]. split; [now apply K|reflexivity].
Qed.

(** ---- runs that do not end ---- *)
Section Stops.
  Context {S : Type}.
  Variable su : setup.
  Lemma send_form events : forall accs (t : calf S), exists l rest, events = l ++ rest /\ fst (send_events su accs events t) = with_events l t.
  Proof.
    induction events as [|w events IH]; intros accs t; [exists [], []; rewrite with_nil; auto|]. cbn [send_events]. rewrite bind_call. destruct (one_event _ _ accs w) as [r|]; [|exists [], (w :: events); rewrite with_nil; auto].
    rewrite !bind_put. destruct (IH r (write_event w (write_run w t))) as (l & rest & -> & E). exists (w :: l), rest. rewrite E, with_cons. auto.
  Qed.
  Lemma with_app a b (t : calf S) : with_events b (with_events a t) = with_events (a ++ b) t.
  Proof. unfold with_events. cbn. now rewrite !map_app, <- !app_assoc. Qed.
  Lemma send_visits events : forall accs (t f : calf S), In f (visited (send_events su accs events) t) ->
    exists a b, fst (send_events su accs events t) = with_events (a ++ b) t /\ (f = with_events a t \/ exists w b', b = w :: b' /\ f = write_run w (with_events a t)).
  Proof.
    induction events as [|w events IH]; intros accs t f; cbn [send_events].
    - intros H. apply in_ret in H. subst. exists [], []. cbn [app]. rewrite !with_nil. split; [reflexivity|left; reflexivity].
    - intros H. pose proof (send_form (w :: events) accs t) as (l & rest & El & F). cbn [send_events] in F. apply in_call in H. rewrite bind_call in *. destruct (one_event _ _ accs w) as [r|]; [|subst; exists [], []; cbn [app]; rewrite !with_nil; split; [reflexivity|left; reflexivity]].
      apply in_put in H. destruct H as [->|H]; [exists [], l; rewrite F, with_nil; split; [reflexivity|left; reflexivity]|].
      assert (Fw : exists l', fst (send_events su r events (write_event w (write_run w t))) = with_events (w :: l') t) by (destruct (send_form events r (write_event w (write_run w t))) as (l' & _ & _ & E); exists l'; now rewrite E, with_cons).
      apply in_put in H. destruct H as [->|H].
      + destruct Fw as (l' & E). rewrite !bind_put. exists [], (w :: l'). split; [exact E|]. right. exists w, l'. now rewrite with_nil.
      + rewrite !bind_put. destruct (IH r _ f H) as (a & b & E & D). exists (w :: a), b. cbn [app]. rewrite E, with_cons. split; [reflexivity|]. rewrite with_cons in D. exact D.
  Qed.
  Lemma write_visits l : forall t f : calf S, In f (visited (each l (write_spectrum su)) t) -> exists L, fst (each l (write_spectrum su) t) = with_spectra L t /\
    exists j, f = with_spectra (firstn j L) t \/ exists x, nth_error L j = Some x /\ f = with_spectra (firstn j L ++ [(fst x, [])]) t.
  Proof.
    assert (Fo : forall l (t : calf S), exists L, fst (each l (write_spectrum su) t) = with_spectra L t).
    { clear. intros l t. destruct (writes_cases su l) as [H|(b & x & a & -> & H & N)]; [rewrite writes_ok by exact H; eexists; reflexivity|rewrite writes_err by assumption; eexists; reflexivity]. }
    induction l as [|x l IH]; intros t f; cbn [each]; [intros H; apply in_ret in H; subst; exists []; cbn; rewrite spectra_nil; split; [reflexivity|exists 0; left; cbn; now rewrite spectra_nil]|].
    intros H. rewrite exec_bind. apply in_bind in H. destruct (Nat.eq_dec (List.length (snd x)) (su_sensors su)) as [E|N].
    - rewrite write_ok by exact E. destruct H as [H|(t1 & u & H1 & H)].
      + destruct (Fo l (with_spectra [filled x] t)) as (L & EL). exists (filled x :: L). split; [rewrite EL, spectra_app; reflexivity|]. unfold write_spectrum in H. apply in_put in H. destruct H as [->|H]; [exists 0; left; cbn; now rewrite spectra_nil|].
        apply in_call in H. unfold write_hist in H. rewrite E, Nat.eqb_refl in H. apply in_put1 in H. destruct H as [->| ->]; [exists 0; right; exists (filled x); split; reflexivity|]. exists 1. left. unfold fill_spectrum, new_spectrum, with_spectra. cbn. now rewrite fill_snoc.
      + rewrite write_ok in H1 by exact E. injection H1 as <- _. destruct (IH _ _ H) as (L & EL & j & D). exists (filled x :: L). split; [rewrite EL, spectra_app; reflexivity|]. exists (Datatypes.S j). cbn [firstn nth_error]. destruct D as [->|(y & Y & ->)]; [left; rewrite spectra_app; reflexivity|right; exists y; split; [exact Y|rewrite spectra_app; reflexivity]].
    - rewrite write_err by exact N. exists [(fst x, [])]. split; [reflexivity|]. destruct H as [H|(t1 & u & H1 & _)]; [|rewrite write_err in H1 by exact N; discriminate].
      unfold write_spectrum in H. apply in_put in H. destruct H as [->|H]; [exists 0; left; cbn; now rewrite spectra_nil|]. apply in_call in H. unfold write_hist in H. apply Nat.eqb_neq in N. rewrite N in H. subst. exists 1. left. reflexivity.
  Qed.
End Stops.

(** C124: a run that fails leaves no spectrum, unless all the events have been read and it fails as it writes the spectra *)
Theorem C124_fails : forall S su (sensors_of : string -> option S) open_file paths, calibration_setup su -> paths <> [] ->
  let run r := calibration_run su sensors_of open_file r paths in let events := fst (wf_from_files open_file paths) in let end_ := snd (wf_from_files open_file paths) in
  forall f e, fails_with (run (0, None)) no_calf f e -> cf_sensors f = None /\
    ((exists k, cf_spectra f = [] /\ cf_runs f = firstn k (map w_run events) /\ cf_events f = firstn k (map w_event events) /\
        (forall j, 0 < j <= k -> cf_spectra (fst (run (0, Some j) no_calf)) <> []) /\
        ((k = List.length events /\ end_ = Some e) \/ (k < List.length events /\ fails_with (run (0, Some (k + 1))) no_calf f e))) \/
     (end_ = None /\ e = ValueError /\ cf_runs f = map w_run events /\ cf_events f = map w_event events /\
        exists written name, cf_spectra f = written ++ [(name, [])] /\ Forall (fun t => exists h, snd t = [h] /\ List.length h = su_sensors su) written)).
Proof.
  intros S su sensors_of open_file paths Hs Hp. cbv zeta. destruct (setup_names su Hs) as [Ln Hn]. unfold fails_with, calibration_run. destruct paths as [|first rest]; [congruence|]. rewrite ranged_all. destruct (wf_from_files open_file (first :: rest)) as [events end_]. cbn [fst snd]. set (sensors := sensors_of first). clearbody sensors. clear Hp first rest sensors_of open_file.
  set (z := repeat (zeros (su_sensors su) (su_edges su)) (List.length (su_branches su))). assert (Lz : List.length z = List.length (su_branches su)) by apply repeat_length.
  assert (Some_spectra : forall l hs, all_events (su_edges su) (su_branches su) z l = Ok hs -> cf_spectra (fst (fill_file su sensors (l, None) (@no_calf S))) <> []).
  { intros l hs A. unfold fill_file. cbn [fst snd]. fold z. rewrite exec_bind, (send_ok su l z hs no_calf A), exec_bind. pose proof (all_len _ _ _ _ _ Lz A) as Lh. destruct (writes_cases su (combine (su_names su) hs)) as [H|(b & x & a & E & H & N)].
    - rewrite writes_ok by exact H. cbn. destruct (su_names su) as [|nm names]; [congruence|]. destruct hs as [|h hs]; [cbn in *; congruence|]. discriminate.
    - rewrite E, writes_err by assumption. cbn. destruct (map filled b); discriminate. }
  assert (Upto : forall before after hs, events = before ++ after -> all_events (su_edges su) (su_branches su) z before = Ok hs -> forall j, 0 < j <= List.length before -> cf_spectra (fst (fill_file su sensors (ranged (0, Some j) (events, end_)) (@no_calf S))) <> []).
  { intros before after hs -> A j Hj. rewrite ranged_first by (rewrite ?app_length; lia). assert (E : exists h', all_events (su_edges su) (su_branches su) z (firstn j (before ++ after)) = Ok h').
    { rewrite firstn_app. replace (j - List.length before) with 0 by lia. cbn [firstn]. rewrite app_nil_r. rewrite <- (firstn_skipn j before) in A. apply all_gather in A; [|exact Lz].
      assert (G : exists h', Forall2 (fun fa a => gather (su_edges su) fa (firstn j before) a) (combine (su_branches su) z) h').
      { clear -A. induction A as [|fa a l l' H A (h' & IH)]; [exists []; constructor|]. unfold gather in H. rewrite fold1_app in H. destruct (fold1 _ (fst fa) (snd fa) (firstn j before)) as [x|] eqn:X; [|discriminate]. exists (x :: h'). constructor; assumption. }
      destruct G as (h' & G). exists h'. apply all_gather; assumption. }
    destruct E as (h' & E). now apply Some_spectra in E. }
  intros f e. unfold fill_file at 1. cbn [fst snd]. fold z. rewrite exec_bind. destruct (all_events (su_edges su) (su_branches su) z events) as [hs|x] eqn:A.
  - rewrite (send_ok su events z hs no_calf A). destruct end_ as [x|].
    + intros X. injection X as <- <-. cbn. split; [reflexivity|]. left. exists (List.length events). rewrite !firstn_all2 by (rewrite map_length; lia). split; [reflexivity|]. split; [reflexivity|]. split; [reflexivity|]. split; [|left; split; reflexivity]. intros j Hj. apply (Upto events [] hs); [now rewrite app_nil_r|exact A|exact Hj].
    + rewrite exec_bind. destruct (writes_cases su (combine (su_names su) hs)) as [H|(b & x & a & E & H & N)]; [rewrite writes_ok by exact H; discriminate|]. rewrite E, writes_err by assumption. intros X. injection X as <- <-. cbn. split; [reflexivity|]. right. repeat split.
      exists (map filled b), (fst x). split; [reflexivity|]. apply Forall_forall. intros t Ht. apply in_map_iff in Ht. destruct Ht as (y & <- & Hy). exists (snd y). split; [reflexivity|]. rewrite Forall_forall in H. now apply H.
  - destruct (send_err (S := S) su events z x no_calf A) as (before & w & after & acc & Ev & Ab & O & E). rewrite E. intros X. injection X as <- <-. split; [reflexivity|]. left. exists (List.length before). cbn [with_events no_calf cf_sensors cf_spectra cf_runs cf_events app]. split; [reflexivity|].
    rewrite Ev, !map_app. rewrite !firstn_app, !map_length, !Nat.sub_diag. rewrite (firstn_all2 (map w_run before)), (firstn_all2 (map w_event before)) by (rewrite map_length; lia). cbn [firstn map]. rewrite !app_nil_r. split; [reflexivity|]. split; [reflexivity|]. rewrite <- Ev. split; [now apply (Upto before (w :: after) acc)|].
    right. rewrite Ev, app_length. cbn [List.length]. split; [lia|]. rewrite ranged_first by (rewrite ?app_length; cbn [List.length]; lia). unfold fill_file. cbn [fst snd]. fold z. rewrite exec_bind.
    assert (A' : all_events (su_edges su) (su_branches su) z (firstn (List.length before + 1) (before ++ w :: after)) = Err x).
    { rewrite firstn_app_2. cbn [firstn]. clear -Ab O. revert Ab. generalize z. induction before as [|v before IH]; intros z0; cbn [app all_events]; [intros X; injection X as ->; rewrite O; reflexivity|]. destruct (one_event _ _ z0 v) as [r|]; [|discriminate]. cbn [rbind]. apply IH. }
    destruct (send_err (S := S) su _ z x no_calf A') as (b2 & w2 & a2 & acc2 & Ev2 & Ab2 & O2 & E2). rewrite E2. f_equal. f_equal.
    rewrite firstn_app_2 in Ev2. cbn [firstn] in Ev2. clear -Ev2 Ab Ab2 O O2. (* the event that fails is the same *)
    assert (Len : List.length b2 = List.length before).
    { assert (L : List.length (before ++ [w]) = List.length (b2 ++ w2 :: a2)) by now rewrite Ev2. rewrite !app_length in L. cbn in L. destruct (Nat.eq_dec (List.length b2) (List.length before)) as [|Ne]; [assumption|]. exfalso. assert (Lt : List.length b2 < List.length before) by lia.
      assert (B : exists m, before = b2 ++ w2 :: m). { clear -Ev2 Lt. revert b2 Ev2 Lt. induction before as [|v before IH]; intros b2 Ev2 Lt; [cbn in Lt; lia|]. destruct b2 as [|u b2]; cbn in Ev2; injection Ev2 as <- Ev2; [exists before; reflexivity|]. destruct (IH b2 Ev2) as (m & ->); [cbn in Lt; lia|]. exists m. reflexivity. }
      destruct B as (m & ->). clear -Ab Ab2 O2. revert Ab Ab2. generalize z. induction b2 as [|v b2 IH]; intros z0; cbn [app all_events]; [intros A1 A2; injection A2 as ->; rewrite O2 in A1; discriminate|]. destruct (one_event _ _ z0 v) as [r|]; [|discriminate]. cbn [rbind]. apply IH. }
    clear -Ev2 Len. revert b2 Ev2 Len. induction before as [|v before IH]; intros [|u b2] Ev2 Len; try discriminate; [reflexivity|]. cbn in Ev2. injection Ev2 as <- Ev2. f_equal. apply IH; [exact Ev2|now injection Len].
Qed.
(** C124: a run that is stopped at any time leaves a beginning of what it would have left; if there is a spectrum, all the events have been read *)
Theorem C124_stopped : forall S su (sensors_of : string -> option S) open_file r paths,
  let run := calibration_run su sensors_of open_file r paths in let last := fst (run no_calf) in
  forall f, In f (visited run no_calf) ->
    prefix (cf_runs f) (cf_runs last) /\ prefix (cf_events f) (cf_events last) /\ List.length (cf_events f) <= List.length (cf_runs f) <= List.length (cf_events f) + 1 /\
    (cf_sensors f = None \/ f = last) /\
    (cf_spectra f = [] \/
     (cf_runs f = cf_runs last /\ cf_events f = map w_event (fst (ranged r (wf_from_files open_file paths))) /\ cf_events f = cf_events last /\
      exists j, cf_spectra f = firstn j (cf_spectra last) \/ exists t, nth_error (cf_spectra last) j = Some t /\ cf_spectra f = firstn j (cf_spectra last) ++ [(fst t, [])])).
Proof.
  intros S su sensors_of open_file r paths. cbv zeta. intros f. unfold calibration_run. destruct paths as [|first rest].
  { intros [<-|[]]. cbn. repeat split; auto; exists []; reflexivity. }
  set (source := ranged r _). clearbody source. unfold fill_file. set (z := repeat _ _). intros H. rewrite exec_bind. apply in_bind in H. destruct H as [H|(t1 & accs & H1 & H)].
  - destruct (send_visits su (fst source) z no_calf f H) as (a & b & E & D).
    assert (M : exists l se, fst (match send_events su z (fst source) no_calf with (t, Ok a0) => match snd source with Some e => raise e | None => each (combine (su_names su) a0) (write_spectrum su) ;;; put (copy_sensor_table (sensors_of first)) end t | (t, Err e) => (t, Err e) end) =
      {| cf_runs := map w_run (a ++ b); cf_events := map w_event (a ++ b); cf_spectra := l; cf_sensors := se |}).
    { destruct (send_events su z (fst source) no_calf) as [t2 [accs|e]]; cbn [fst] in E; subst t2; [|do 2 eexists; reflexivity]. destruct (snd source) as [e|]; [do 2 eexists; reflexivity|]. cbv beta iota. rewrite exec_bind. destruct (writes_cases su (combine (su_names su) accs)) as [K|(b2 & x & a2 & E2 & K & N)]; [rewrite writes_ok by exact K; do 2 eexists; reflexivity|rewrite E2, writes_err by assumption; do 2 eexists; reflexivity]. }
    destruct M as (l & se & M). rewrite M. cbn [cf_runs cf_events cf_spectra cf_sensors]. destruct D as [->|(w & b' & -> & ->)]; cbn.
    + rewrite !map_app, !map_length. repeat split; auto; try lia; eexists; reflexivity.
    + rewrite !map_app, !app_length, !map_length. cbn. repeat split; auto; try lia; [exists (map w_run b'); now rewrite <- app_assoc|eexists; reflexivity].
  - rewrite H1. assert (T : t1 = with_events (fst source) no_calf). { destruct (all_events (su_edges su) (su_branches su) z (fst source)) as [hs|x] eqn:A; [rewrite (send_ok su _ z hs no_calf A) in H1; now injection H1 as <- _|]. destruct (send_err (S := S) su _ z x no_calf A) as (b & w & a & acc & _ & _ & _ & E). rewrite E in H1. discriminate. }
    subst t1. clear H1. destruct (snd source) as [e|]; [apply in_ret in H || (destruct H as [<-|[]]); cbn; repeat split; auto; try (exists []; now rewrite app_nil_r); rewrite ?map_length; lia|].
    rewrite exec_bind. apply in_bind in H. destruct H as [H|(t1 & u & H1 & H)].
    + destruct (write_visits su _ _ f H) as (L & EL & j & D).
      assert (M : exists se, fst (match each (combine (su_names su) accs) (write_spectrum su) (with_events (fst source) no_calf) with (t, Ok _) => put (copy_sensor_table (sensors_of first)) t | (t, Err e) => (t, Err e) end) = {| cf_runs := map w_run (fst source); cf_events := map w_event (fst source); cf_spectra := L; cf_sensors := se |}).
      { destruct (each _ _ _) as [t2 [u|e]]; cbn [fst] in EL; subst t2; eexists; reflexivity. }
      destruct M as (se & M). rewrite M. cbn [cf_runs cf_events cf_spectra cf_sensors]. destruct D as [->|(x & X & ->)]; cbn; rewrite ?map_length; (split; [exists []; now rewrite app_nil_r|]); (split; [exists []; now rewrite app_nil_r|]); (split; [lia|]); (split; [auto|]); right; repeat split; exists j; eauto.
    + rewrite H1. destruct (writes_cases su (combine (su_names su) accs)) as [K|(b2 & x & a2 & E2 & K & N)]; [|rewrite E2, writes_err in H1 by assumption; discriminate]. rewrite writes_ok in H1 by exact K. injection H1 as <- _. 
      apply in_put1 in H. destruct H as [->| ->]; cbn; rewrite ?map_length; (split; [exists []; now rewrite app_nil_r|]); (split; [exists []; now rewrite app_nil_r|]); (split; [lia|]); (split; [auto|]); right; repeat split; exists (List.length (map filled (combine (su_names su) accs))); left; now rewrite firstn_all.
Qed.
Print Assumptions C124_jobs. Print Assumptions C124_ranges. Print Assumptions C124_phyllis. Print Assumptions C124_trude. Print Assumptions C124_berenice. Print Assumptions C124_fails. Print Assumptions C124_stopped.
