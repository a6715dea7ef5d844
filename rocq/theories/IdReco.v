(** C117 for the cities that read PMaps and hits *)
From Verif Require ReadModel BuffersModel.
From Verif Require Import Base PeaksModel BuffersModel.
From Verif Require Import ReadModel.
From Verif Require Import PmapioModel FiltersModel XyModel HitsModel CorrModel EsmModel SophModel SoeModel KrModel PreadModel DorModel SrunModel.
From Verif Require Import PaolinaModel TopoModel ErunModel BeerModel BrunModel IsaModel.
From Verif Require Import IdSpec IdWf.
Local Open Scope nat_scope.

Lemma over_listed {F A B} (read : F -> generated A) (id : A -> B) (table : F -> list B) files : (forall f, subsequence (map id (fst (read f))) (table f)) ->
  subsequence (map id (fst (over_files read files))) (flat_map table files).
Proof.
  intros H. induction files as [|f files IH]; [constructor|]. cbn [over_files flat_map]. specialize (H f). destruct (read f) as [l [e|]]; cbn [fst] in *.
  - rewrite <- (app_nil_r (map id l)). apply sub_app; [exact H|apply sub_none].
  - destruct (over_files read files) as [m e]. cbn [fst] in *. rewrite map_app. now apply sub_app.
Qed.
Lemma pmap_events_listed t run events : subsequence (map (fun it => (pi_event it, pi_time it)) (fst (pmap_events t run events))) events.
Proof.
  induction events as [|[ev time] events IH]; [constructor|]. cbn [pmap_events]. destruct (lazy_event t ev) as [[n pm]|]; [|apply sub_none]. destruct (Z.eqb ev n); [|apply sub_none]. destruct (pmap_events t run events) as [l e]. cbn [fst map] in *. now constructor.
Qed.
Lemma pmaps_listed files : subsequence (map (fun it => (pi_event it, pi_time it)) (fst (pmap_from_files files))) (pm_listed files).
Proof.
  unfold pmap_from_files, pm_listed. apply over_listed. intros f. unfold pmap_from_file. destruct (run_of (pf_runs f)); [|apply sub_none]. destruct (pf_events f) as [events|]; [|apply sub_none]. destruct events as [|e events]; [constructor|].
  destruct (pf_tables f); [|apply sub_none]. destruct (check_file_integrity _ _); [|apply sub_none]. apply pmap_events_listed.
Qed.
Lemma hits_are_listed {H K} (he : H -> Z) (ke : K -> Z) files : subsequence (map (fun it => (i_event it, i_time it)) (fst (hits_and_kdst_from_files he ke files))) (hits_listed files).
Proof.
  unfold hits_and_kdst_from_files, hits_listed. apply over_listed. intros f. unfold hits_and_kdst_from_file. destruct (f_hits f); [|apply sub_none]. destruct (f_kdst f); [|apply sub_none]. destruct (run_of (f_runs f)); [|apply sub_none]. destruct (f_events f) as [events|]; [|apply sub_none].
  destruct (_ =? _); [|apply sub_none]. cbn [fst listed]. rewrite map_map. erewrite map_ext; [rewrite map_id; apply sub_refl|]. now intros [ev t].
Qed.

(** the rows of the pointlike events have the number of the event *)
Lemma pointlike_event xys v ch rms reco pm sel ev t e : build_pointlike_event xys v ch rms reco pm sel ev t = Ok e -> e_event e = ev /\ e_time e = (t * (1 # 1000))%Q.
Proof.
  unfold build_pointlike_event. assert (A : forall l e0, e_event (fold_left add_s1 l e0) = e_event e0 /\ e_time (fold_left add_s1 l e0) = e_time e0).
  { induction l as [|p l IH]; intros e0; [now split|]. cbn [fold_left]. destruct (IH (add_s1 e0 p)) as [-> ->]. now split. }
  assert (B : forall l e0 e1, add_s2s xys v ch rms reco e0 l = Ok e1 -> e_event e1 = e_event e0 /\ e_time e1 = e_time e0).
  { induction l as [|p l IH]; intros e0 e1 H; cbn [add_s2s] in H; [injection H as <-; now split|]. destruct (add_s2 xys v ch rms reco e0 p) as [e2|] eqn:E; [|discriminate]. cbn [rbind] in H. destruct (IH _ _ H) as [-> ->].
    unfold add_s2 in E. destruct (locate _ _ _ _ _ p _ _) as [[[[c z] dt] zr]|]; [|discriminate]. cbn [rbind] in E. destruct (list_max (ch p)); [|discriminate]. cbn [rbind] in E. injection E as <-. now split. }
  intros H. destruct (B _ _ _ H) as [-> ->]. destruct (A (chosen (s1_peaks sel) (s1s pm)) (new_event ev (t * (1 # 1000))%Q)) as [-> ->]. now split.
Qed.
Lemma kr_rows_of e rows : kr_store e = Ok rows -> Forall (fun r => w_event r = e_event e /\ w_time r = e_time e) rows.
Proof.
  intros H. apply Forall_forall. intros r Hr. unfold kr_store in H. destruct (rmap_from _ _ _ H r Hr) as ([i j] & _ & E). unfold kr_row in E.
  repeat match type of E with rbind ?x _ = Ok _ => destruct x; cbn [rbind] in E; [|discriminate] end. injection E as <-. now split.
Qed.

Definition id3 (it : pitem) : Z * Z * Q := (pi_run it, pi_event it, pi_time it).
Lemma new_of {A B} (key : A -> B) (n1 n2 : list B) l m : incl (map key l) n1 -> incl (map key m) n2 -> incl (map key (l ++ m)) (n1 ++ n2).
Proof. intros I J. rewrite map_app. intros x Hx. apply in_app_or in Hx. apply in_or_app. destruct Hx; auto. Qed.
Lemma one_of {A B} (key : A -> B) (b : B) m : Forall (fun x => key x = b) m -> incl (map key m) [b].
Proof. intros F x Hx. apply in_map_iff in Hx. destruct Hx as (y & <- & Hy). rewrite Forall_forall in F. left. symmetry. now apply F. Qed.

Section Pmaps.
  Variables (xys : list (Q * Q)) (v : Q) (noise : list nat -> list Q -> Z -> list Q) (sw : Q -> Z) (ct : charge_type) (sqrt : Q -> Q) (atan : Q -> Q -> Q) (qthr : Q).
  Lemma dorothea_events s items : forall o o', dorothea_run xys v noise sw ct sqrt atan qthr s items o = Ok o' -> exists l rows, subsequence l items /\ do_info o' = do_info o ++ map id3 l /\ do_numbers o' = do_numbers o ++ map pi_event l /\
    do_rows o' = do_rows o ++ rows /\ incl (map kr_key rows) (map kr_of (map id3 l)) /\ map fst (do_filter o') = map fst (do_filter o) ++ map pi_event items.
  Proof.
    induction items as [|it items IH]; intros o o' H; cbn [dorothea_run] in H.
    - injection H as <-. exists [], []. rewrite !app_nil_r. split; [constructor|]. repeat (split; [reflexivity|]). split; [intros x []|]. reflexivity.
    - destruct (passed _).
      + destruct (build_pointlike_event _ _ _ _ _ _ _ _ _) as [e|] eqn:B; [|discriminate]. cbn [rbind] in H. destruct (kr_store e) as [rows|] eqn:K; [|discriminate]. cbn [rbind] in H.
        destruct (IH _ _ H) as (l & more & S & E1 & E2 & E3 & E4 & E5). cbn [do_info do_numbers do_rows do_filter] in *. exists (it :: l), (rows ++ more). cbn [map]. split; [now constructor|].
        rewrite E1, E2, E3, E5, (map_app fst), <- !app_assoc. repeat (split; [reflexivity|]). split; [|reflexivity]. apply pointlike_event in B. destruct B as [B1 B2]. apply kr_rows_of in K.
        change (kr_of (id3 it) :: map kr_of (map id3 l)) with ([kr_of (id3 it)] ++ map kr_of (map id3 l)). apply new_of; [|exact E4]. apply one_of. eapply Forall_impl; [|exact K]. intros r [R1 R2]. unfold kr_key, kr_of, id3. cbn [fst snd]. now rewrite R1, R2, B1, B2.
      + destruct (IH _ _ H) as (l & more & S & E1 & E2 & E3 & E4 & E5). cbn [do_info do_numbers do_rows do_filter] in *. exists l, more. split; [now constructor|]. rewrite E5, map_app, <- app_assoc. auto.
  Qed.
  (** dorothea: the events written are some of those listed in the input files, in order; each row of DST/Events is of one of them *)
  Theorem C117_dorothea c files o : dorothea xys v noise sw ct sqrt atan qthr c files = Ok o ->
    subsequence (map event_time (do_info o)) (pm_listed files) /\ do_numbers o = map fst (map event_time (do_info o)) /\ incl (map kr_key (do_rows o)) (map kr_of (do_info o)) /\ subsequence (map fst (do_filter o)) (map fst (pm_listed files)).
  Proof.
    unfold dorothea. destruct (mk_selector c) as [s|]; [|discriminate]. cbn [rbind]. pose proof (pmaps_listed files) as L. destruct (pmap_from_files files) as [items e]. cbn [fst] in L. destruct (dorothea_run _ _ _ _ _ _ _ _ s items no_output) as [o1|] eqn:R; [|discriminate]. cbn [rbind]. destruct e; [discriminate|]. injection 1 as <-.
    destruct (dorothea_events _ _ _ _ R) as (l & rows & S & E1 & E2 & E3 & E4 & E5). cbn [no_output do_info do_numbers do_rows do_filter app map] in *. rewrite E1, E2, E3, E5, !map_map. split; [eapply sub_trans; [|exact L]; exact (sub_map (fun it => (pi_event it, pi_time it)) _ _ S)|]. split; [reflexivity|].
    split; [rewrite map_map in E4; exact E4|]. apply (sub_map fst) in L. now rewrite map_map in L.
  Qed.

  Variable nearest : list (Q * Q * Q) -> Q * Q * Q -> nat.
  Lemma sophronia_events s rebin method qt sp corr items : forall o o', sophronia_run nearest xys v noise sw ct sqrt atan qthr s rebin method qt sp corr items o = Ok o' -> exists l rows hits, subsequence l items /\ so_info o' = so_info o ++ map id3 l /\
    so_numbers o' = so_numbers o ++ map pi_event l /\ so_rows o' = so_rows o ++ rows /\ incl (map kr_key rows) (map kr_of (map id3 l)) /\ so_hits o' = so_hits o ++ hits /\ incl (map fst hits) (map pi_event l) /\
    map fst (so_valid o') = map fst (so_valid o) ++ map pi_event l /\ map fst (so_filter o') = map fst (so_filter o) ++ map pi_event items.
  Proof.
    induction items as [|it items IH]; intros o o' H; cbn [sophronia_run] in H.
    - injection H as <-. exists [], [], []. cbn [map]. rewrite !app_nil_r. split; [constructor|]. repeat (split; [reflexivity|]). split; [intros x []|]. split; [reflexivity|]. split; [intros x []|]. split; reflexivity.
    - destruct (passed _).
      + destruct (build_pointlike_event _ _ _ _ _ _ _ _ _) as [e|] eqn:B; [|discriminate]. cbn [rbind] in H. destruct (kr_store e) as [rows|] eqn:K; [|discriminate]. cbn [rbind] in H. destruct (sophronia_hits _ _ _ _ _ _ _ _ _ _ _ _ _ _ _ _) as [h|]; [|discriminate]. cbn [rbind] in H.
        destruct (match h with Some (Some l) => (true, map (pair (pi_event it)) l) | _ => (false, []) end) as [valid hits] eqn:Eh.
        assert (Hh : Forall (fun x : Z * hit => fst x = pi_event it) hits). { destruct h as [[l|]|]; injection Eh as <- <-; [|constructor|constructor]. apply Forall_forall. intros x Hx. apply in_map_iff in Hx. destruct Hx as (y & <- & _). reflexivity. }
        destruct (IH _ _ H) as (l & more & mhits & S & E1 & E2 & E3 & E4 & E5 & E6 & E7 & E8). cbn [so_info so_numbers so_rows so_filter so_hits so_valid] in *. exists (it :: l), (rows ++ more), (hits ++ mhits). cbn [map]. split; [now constructor|].
        rewrite E1, E2, E3, E5, E7, E8, !map_app, <- !app_assoc. repeat (split; [reflexivity|]). apply pointlike_event in B. destruct B as [B1 B2]. apply kr_rows_of in K. split.
        { rewrite <- map_app. change (kr_of (id3 it) :: map kr_of (map id3 l)) with ([kr_of (id3 it)] ++ map kr_of (map id3 l)). apply new_of; [|exact E4]. apply one_of. eapply Forall_impl; [|exact K]. intros r [R1 R2]. unfold kr_key, kr_of, id3. cbn [fst snd]. now rewrite R1, R2, B1, B2. }
        split; [reflexivity|]. split; [|split; reflexivity]. rewrite <- map_app. change (pi_event it :: map pi_event l) with ([pi_event it] ++ map pi_event l). apply new_of; [|exact E6]. now apply one_of.
      + destruct (IH _ _ H) as (l & more & mhits & S & E1 & E2 & E3 & E4 & E5 & E6 & E7 & E8). cbn [so_info so_numbers so_rows so_filter so_hits so_valid] in *. exists l, more, mhits. split; [now constructor|]. rewrite E8, map_app, <- app_assoc. auto 10.
  Qed.
  (** sophronia: the same, and each row of RECO/Events is of one of the events; the filter of valid hits has a row for each *)
  Theorem C117_sophronia c rebin method qt sp corr files o : sophronia nearest xys v noise sw ct sqrt atan qthr c rebin method qt sp corr files = Ok o ->
    subsequence (map event_time (so_info o)) (pm_listed files) /\ so_numbers o = map fst (map event_time (so_info o)) /\ incl (map kr_key (so_rows o)) (map kr_of (so_info o)) /\ incl (map fst (so_hits o)) (so_numbers o) /\
    map fst (so_valid o) = so_numbers o /\ subsequence (map fst (so_filter o)) (map fst (pm_listed files)).
  Proof.
    unfold sophronia. destruct (mk_selector c) as [s|]; [|discriminate]. cbn [rbind]. pose proof (pmaps_listed files) as L. destruct (pmap_from_files files) as [items e]. cbn [fst] in L. destruct (sophronia_run _ _ _ _ _ _ _ _ _ s _ _ _ _ _ items nothing_done) as [o1|] eqn:R; [|discriminate]. cbn [rbind]. destruct e; [discriminate|]. injection 1 as <-.
    destruct (sophronia_events _ _ _ _ _ _ _ _ _ R) as (l & rows & hits & S & E1 & E2 & E3 & E4 & E5 & E6 & E7 & E8). cbn [nothing_done so_info so_numbers so_rows so_filter so_hits so_valid app map] in *. rewrite E1, E2, E3, E5, E7, E8, !map_map. split; [eapply sub_trans; [|exact L]; exact (sub_map (fun it => (pi_event it, pi_time it)) _ _ S)|]. split; [reflexivity|].
    split; [rewrite map_map in E4; exact E4|]. split; [exact E6|]. split; [reflexivity|]. apply (sub_map fst) in L. now rewrite map_map in L.
  Qed.
End Pmaps.

Lemma tracks_of round5 paths norm dims strict ethr minv blob scan maxh t ev hits w : write_tracks_info round5 paths norm dims strict ethr minv blob scan maxh t ev hits = Ok w ->
  Forall (fun s => TopoModel.s_event s = ev) (w_summary w) /\ Forall (fun k => k_event k = ev) (w_tracks w).
Proof.
  unfold write_tracks_info. destruct hits as [|h hits]; [injection 1 as <-; split; constructor|]. destruct (create_extract_track_blob_info _ _ _ _ _ _ _ _ _ _ _ _) as [[[rows out] flag]|] eqn:E; [|discriminate]. cbn [rbind].
  destruct (make_event_summary ev rows (sort_hits out) flag) as [s|] eqn:Es; [|discriminate]. cbn [rbind]. injection 1 as <-. cbn [w_summary w_tracks]. split.
  - unfold make_event_summary in Es. destruct (sort_hits out); [injection Es as <-; constructor|]. destruct (average xof _); [|discriminate]. cbn [rbind] in Es. destruct (average yof _); [|discriminate]. cbn [rbind] in Es. destruct (average zof _); [|discriminate]. cbn [rbind] in Es. injection Es as <-. now repeat constructor.
  - unfold create_extract_track_blob_info in E. destruct (copy_Efield t (h :: hits)) as [|h' hs]; [discriminate|]. destruct (_ <? _)%Z; [injection E as <- <- <-; constructor|]. cbv zeta in E. destruct (negb _); [injection E as <- <- <-; constructor|].
    destruct (voxelize_hits _ _ _) as [vs|]; [|discriminate]. cbn [rbind] in E. destruct (drop_end_point_voxels _ _ _ _ _ _) as [[[mods dropped]|]|]; [|destruct vs; discriminate|discriminate]. destruct vs as [|v0 vs]; [discriminate|]. cbn [rbind] in E.
    destruct (rmap _ _) as [rs|] eqn:R; [|discriminate]. cbn [rbind] in E. injection E as <- <- <-. apply Forall_forall. intros k Hk. destruct (rmap_from _ _ _ R k Hk) as ([i tr] & _ & T). unfold track_info in T. cbv zeta in T. destruct (Qeqb _ 0); [discriminate|].
    destruct (find_extrema_and_length _ _) as [r|]; [|discriminate]. cbn [rbind] in T. destruct (fst r) as [[a b]|]; [|discriminate]. destruct (blob_energies_hits_and_centres _ _ _ _ _ _ _) as [bb|]; [|discriminate]. cbn [rbind] in T. injection T as <-. reflexivity.
Qed.

Section Hits.
  Context {K : Type}.
  Variable kdst_event : K -> Z.
  Variable nearest : list (Q * Q * Q) -> Q * Q * Q -> nat.
  Variable others : hit -> nat.
  Variables (round5 : Q -> Q) (paths : list voxel -> list voxel * (voxel -> voxel -> Q)) (norm : pos3 -> Q).
  Variables (m : list kbin) (dvs : list (option Q)) (method : norm_method) (xy : option region) (apply_temp apply_z : bool).
  Variables (radius th : Q) (same_peak : bool).
  Variables (vox_size : Q * Q * Q) (strict : bool) (energy_threshold : Q) (min_voxels : nat) (blob_radius : Q) (scan_radius : option Q) (max_num_hits : Z).
  Definition h3 (it : hitem (Z * hit) K) : Z * Z * Q := (i_run it, i_event it, i_time it).
  Notation erun := (esmeralda_run nearest others round5 paths norm m dvs method xy apply_temp apply_z radius th same_peak vox_size strict energy_threshold min_voxels blob_radius scan_radius max_num_hits).
  Notation ecity := (esmeralda kdst_event nearest others round5 paths norm m dvs method xy apply_temp apply_z radius th same_peak vox_size strict energy_threshold min_voxels blob_radius scan_radius max_num_hits).

  Lemma esmeralda_events items : forall (o o' : eout K), erun items o = Ok o' -> exists ss ts hs tops, eo_info o' = eo_info o ++ map h3 items /\ eo_numbers o' = eo_numbers o ++ map i_event items /\
    eo_summary o' = eo_summary o ++ ss /\ eo_tracks o' = eo_tracks o ++ ts /\ eo_hits o' = eo_hits o ++ hs /\ eo_topology o' = eo_topology o ++ tops /\
    incl (map TopoModel.s_event ss) (map i_event items) /\ incl (map k_event ts) (map i_event items) /\ incl (map c_number hs) (map i_event items) /\ incl (map fst tops) (map i_event items) /\
    map fst (eo_select o') = map fst (eo_select o) ++ map i_event items.
  Proof.
    induction items as [|it items IH]; intros o o' H; cbn [esmeralda_run] in H.
    - injection H as <-. exists [], [], [], []. cbn [map]. rewrite !app_nil_r. repeat (split; [reflexivity|]). repeat (split; [intros x []|]). reflexivity.
    - destruct (esmeralda_hits _ _ _ _ _ _ _ _ _ _ _) as [hits|]; [|discriminate]. cbn [rbind] in H. destruct (write_tracks_info _ _ _ _ _ _ _ _ _ _ _ _ _) as [w|] eqn:W; [|discriminate]. cbn [rbind] in H. apply tracks_of in W. destruct W as [W1 W2].
      destruct (IH _ _ H) as (ss & ts & hs & tops & E1 & E2 & E3 & E4 & E5 & E6 & E7 & E8 & E9 & E10 & E11). cbn [eo_info eo_numbers eo_summary eo_tracks eo_hits eo_topology eo_select] in *.
      exists (w_summary w ++ ss), (w_tracks w ++ ts), (map (fun h => {| c_number := i_event it; c_hit := nth (o_row h) hits no_hit; c_out := h |}) (w_hits w) ++ hs), (map (pair (i_event it)) (w_topology w) ++ tops). rewrite E1, E2, E3, E4, E5, E6, E11, (map_app fst (eo_select o)), <- !app_assoc. repeat (split; [reflexivity|]). cbn [map]. change (i_event it :: map i_event items) with ([i_event it] ++ map i_event items).
      split; [apply new_of; [now apply one_of|exact E7]|]. split; [apply new_of; [now apply one_of|exact E8]|]. split; [apply new_of; [|exact E9]; apply one_of; apply Forall_forall; intros x Hx; apply in_map_iff in Hx; destruct Hx as (y & <- & _); reflexivity|].
      split; [|reflexivity]. apply new_of; [|exact E10]. apply one_of. apply Forall_forall. intros x Hx. apply in_map_iff in Hx. destruct Hx as (y & <- & _). reflexivity.
  Qed.
  (** esmeralda writes every event it reads, and each row of the tables is of one of them *)
  Theorem C117_esmeralda files (o : eout K) : ecity files = Ok o ->
    subsequence (map event_time (eo_info o)) (hits_listed files) /\ eo_numbers o = map fst (map event_time (eo_info o)) /\ map fst (eo_select o) = eo_numbers o /\
    incl (map TopoModel.s_event (eo_summary o)) (eo_numbers o) /\ incl (map k_event (eo_tracks o)) (eo_numbers o) /\ incl (map c_number (eo_hits o)) (eo_numbers o) /\ incl (map fst (eo_topology o)) (eo_numbers o).
  Proof.
    unfold esmeralda. pose proof (hits_are_listed fst kdst_event files) as L. destruct (hits_and_kdst_from_files fst kdst_event files) as [items e]. cbn [fst] in L. destruct (erun items no_event_done) as [o1|] eqn:R; [|discriminate]. cbn [rbind]. destruct e; [discriminate|]. injection 1 as <-.
    destruct (esmeralda_events _ _ _ R) as (ss & ts & hs & tops & E1 & E2 & E3 & E4 & E5 & E6 & E7 & E8 & E9 & E10 & E11). cbn [no_event_done eo_info eo_numbers eo_summary eo_tracks eo_hits eo_topology eo_select app map] in *. rewrite E1, E2, E3, E4, E5, E6, E11, !map_map. split; [exact L|]. auto 10.
  Qed.

  Variable deconvolution : list (Q * Q * Q) -> Q -> list (Q * Q * Q).
  Variable round6 : Q -> Q.
  Variable c : beer_conf.
  Notation brun := (beersheba_run nearest deconvolution round6 m dvs method xy c).
  Lemma beersheba_events items : forall (o o' : bout K), brun items o = Ok o' -> exists l ds hs, subsequence l items /\ br_info o' = br_info o ++ map h3 l /\ br_numbers o' = br_numbers o ++ map i_event l /\ br_deco o' = br_deco o ++ ds /\ incl (map fst ds) (map i_event l) /\
    br_hits o' = br_hits o ++ hs /\ incl (map fst hs) (map i_event items) /\ map fst (br_filter o') = map fst (br_filter o) ++ map i_event items.
  Proof.
    assert (P : forall A (ev : Z) (l : list A), incl (map fst (map (pair ev) l)) [ev]). { intros A ev l. apply one_of. apply Forall_forall. intros x Hx. apply in_map_iff in Hx. destruct Hx as (y & <- & _). reflexivity. }
    induction items as [|it items IH]; intros o o' H; cbn [beersheba_run] in H.
    - injection H as <-. exists [], [], []. cbn [map]. rewrite !app_nil_r. split; [constructor|]. repeat (split; [reflexivity|]). split; [intros x []|]. split; [reflexivity|]. split; [intros x []|]. reflexivity.
    - destruct (beersheba_event _ _ _ _ _ _ _ _ _ _) as [b|]; [|discriminate]. cbn [rbind] in H. cbv zeta in H. destruct (bo_passed b); destruct (IH _ _ H) as (l & ds & hs & S & E1 & E2 & E3 & E4 & E5 & E6 & E7); cbn [br_info br_numbers br_deco br_hits br_filter] in *.
      + exists (it :: l), (map (pair (i_event it)) (bo_deco b) ++ ds), (map (pair (i_event it)) (bo_hits b) ++ hs). cbn [map]. split; [now constructor|]. rewrite E1, E2, E3, E5, E7, (map_app fst (br_filter o)), <- !app_assoc. repeat (split; [reflexivity|]). split; [exact (new_of fst [i_event it] _ _ _ (P _ _ _) E4)|]. split; [reflexivity|]. split; [exact (new_of fst [i_event it] _ _ _ (P _ _ _) E6)|reflexivity].
      + exists l, ds, (map (pair (i_event it)) (bo_hits b) ++ hs). cbn [map]. split; [now constructor|]. rewrite E1, E2, E3, E5, E7, (map_app fst (br_filter o)), <- !app_assoc. repeat (split; [reflexivity|]). split; [exact E4|]. split; [reflexivity|]. split; [exact (new_of fst [i_event it] _ _ _ (P _ _ _) E6)|reflexivity].
  Qed.
  Lemma sub_numbers {A} (ev : A -> Z) (time : A -> Q) items listed : subsequence (map (fun it => (ev it, time it)) items) listed -> subsequence (map ev items) (map fst listed).
  Proof. intros L. apply (sub_map fst) in L. now rewrite map_map in L. Qed.
  (** beersheba: the events of Run are some of those listed, in order; the deconvolved hits are of them. The hits over threshold and the filter are of events listed. *)
  Theorem C117_beersheba n_dim sizes files (o : bout K) : beersheba kdst_event nearest deconvolution round6 m dvs method xy c n_dim sizes files = Ok o ->
    subsequence (map event_time (br_info o)) (hits_listed files) /\ br_numbers o = map fst (map event_time (br_info o)) /\ incl (map fst (br_deco o)) (br_numbers o) /\
    incl (map fst (br_hits o)) (map fst (br_filter o)) /\ subsequence (map fst (br_filter o)) (map fst (hits_listed files)) /\ subsequence (br_numbers o) (map fst (br_filter o)).
  Proof.
    unfold beersheba. destruct (check_configuration _ _ _ _); [|discriminate]. cbn [rbind]. pose proof (hits_are_listed fst kdst_event files) as L. destruct (hits_and_kdst_from_files fst kdst_event files) as [items e]. cbn [fst] in L. destruct (brun items nothing_deconvolved) as [o1|] eqn:R; [|discriminate]. cbn [rbind]. destruct e; [discriminate|]. injection 1 as <-.
    destruct (beersheba_events _ _ _ R) as (l & ds & hs & S & E1 & E2 & E3 & E4 & E5 & E6 & E7). cbn [nothing_deconvolved br_info br_numbers br_deco br_hits br_filter app map] in *. rewrite E1, E2, E3, E5, E7, !map_map. split; [eapply sub_trans; [|exact L]; exact (sub_map (fun it => (i_event it, i_time it)) _ _ S)|]. split; [reflexivity|]. split; [exact E4|]. split; [exact E6|].
    split; [exact (sub_numbers _ _ _ _ L)|]. now apply sub_map.
  Qed.
End Hits.

(** isaura gives the events in the order of the hits, each with a time listed for it *)
Section Deconvolved.
  Context {K : Type}.
  Variable k_event : K -> Z.
  Lemma deco_listed names hits kdst run table events : incl (map (fun it => (x_event it, x_time it)) (fst (deco_items k_event names hits kdst run table events))) table /\ subsequence (map x_event (fst (deco_items k_event names hits kdst run table events))) events.
  Proof.
    induction events as [|ev events IH]; cbn [deco_items]; [split; [intros x []|constructor]|]. destruct (filter _ table) as [|[e t] l] eqn:F; [split; [intros x []|apply sub_none]|]. destruct (select_columns names); [split; [intros x []|apply sub_none]|].
    destruct (deco_items k_event names hits kdst run table events) as [is er]. cbn [fst map x_event x_time] in *. destruct IH as [I S]. split; [|now constructor]. intros x [<-|Hx]; [|now apply I].
    assert (H : In (e, t) (filter (fun '(e, _) => Z.eqb e ev) table)) by (rewrite F; now left). apply filter_In in H. destruct H as [H E]. apply Z.eqb_eq in E. now subst e.
  Qed.
  Lemma deco_files files : incl (map (fun it => (x_event it, x_time it)) (fst (deco_from_files k_event files))) (hits_listed (map df_file files)).
  Proof.
    unfold deco_from_files, hits_listed. induction files as [|f files IH]; [intros x []|]. cbn [over_files map flat_map].
    assert (F : incl (map (fun it => (x_event it, x_time it)) (fst (deco_from_file k_event f))) (listed (f_events (df_file f)))).
    { unfold deco_from_file. destruct (f_hits (df_file f)); [|intros x []]. destruct (run_of _); [|intros x []]. destruct (f_events (df_file f)); [|intros x []]. destruct (negb _); [intros x []|]. apply deco_listed. }
    destruct (deco_from_file k_event f) as [l [e|]]; cbn [fst] in *; [now apply incl_appl|]. destruct (over_files (deco_from_file k_event) files) as [r e]. cbn [fst] in *. rewrite map_app. apply incl_app; [now apply incl_appl|now apply incl_appr].
  Qed.
  Variable others : drow -> nat.
  Variables (round5 : Q -> Q) (paths : list voxel -> list voxel * (voxel -> voxel -> Q)) (norm : pos3 -> Q).
  Variables (vox_size : Q * Q * Q) (strict : bool) (energy_threshold : Q) (min_voxels : nat) (blob_radius : Q) (scan_radius : option Q) (max_num_hits : Z).
  Theorem C117_isaura files (o : isaout K) : isaura k_event others round5 paths norm vox_size strict energy_threshold min_voxels blob_radius scan_radius max_num_hits files = Ok o ->
    incl (map event_time (is_info o)) (hits_listed (map df_file files)) /\ is_numbers o = map fst (map event_time (is_info o)) /\ map fst (is_select o) = is_numbers o /\
    incl (map TopoModel.s_event (is_summary o)) (is_numbers o) /\ incl (map TopoModel.k_event (is_tracks o)) (is_numbers o) /\ incl (map ir_number (is_hits o)) (is_numbers o).
  Proof.
    unfold isaura. pose proof (deco_files files) as L. destruct (deco_from_files k_event files) as [items e]. cbn [fst] in L. destruct (isaura_run _ _ _ _ _ _ _ _ _ _ _ items no_event_read) as [o1|] eqn:R; [|discriminate]. cbn [rbind]. destruct e; [discriminate|]. injection 1 as <-.
    assert (G : forall items (o o' : isaout K), isaura_run others round5 paths norm vox_size strict energy_threshold min_voxels blob_radius scan_radius max_num_hits items o = Ok o' -> exists ss ts hs, is_info o' = is_info o ++ map (fun it => (x_run it, x_event it, x_time it)) items /\ is_numbers o' = is_numbers o ++ map x_event items /\
      is_summary o' = is_summary o ++ ss /\ is_tracks o' = is_tracks o ++ ts /\ is_hits o' = is_hits o ++ hs /\ incl (map TopoModel.s_event ss) (map x_event items) /\ incl (map TopoModel.k_event ts) (map x_event items) /\ incl (map ir_number hs) (map x_event items) /\
      map fst (is_select o') = map fst (is_select o) ++ map x_event items).
    { clear. induction items as [|it items IH]; intros o o' H; cbn [isaura_run] in H.
      - injection H as <-. exists [], [], []. cbn [map]. rewrite !app_nil_r. repeat (split; [reflexivity|]). repeat (split; [intros x []|]). reflexivity.
      - destruct (write_tracks_info _ _ _ _ _ _ _ _ _ _ _ _ _) as [w|] eqn:W; [|discriminate]. cbn [rbind] in H. apply tracks_of in W. destruct W as [W1 W2]. destruct (IH _ _ H) as (ss & ts & hs & E1 & E2 & E3 & E4 & E5 & E6 & E7 & E8 & E9). cbn [is_info is_numbers is_summary is_tracks is_hits is_select] in *.
        exists (w_summary w ++ ss), (w_tracks w ++ ts), (map (fun h => {| ir_number := x_event it; ir_hit := nth (o_row h) (x_hits it) no_row; ir_out := h |}) (w_hits w) ++ hs). rewrite E1, E2, E3, E4, E5, E9, (map_app fst (is_select o)), <- !app_assoc. repeat (split; [reflexivity|]). cbn [map]. change (x_event it :: map x_event items) with ([x_event it] ++ map x_event items).
        split; [apply new_of; [now apply one_of|exact E6]|]. split; [apply new_of; [now apply one_of|exact E7]|]. split; [|reflexivity]. apply new_of; [|exact E8]. apply one_of. apply Forall_forall. intros x Hx. apply in_map_iff in Hx. destruct Hx as (y & <- & _). reflexivity. }
    destruct (G _ _ _ R) as (ss & ts & hs & E1 & E2 & E3 & E4 & E5 & E6 & E7 & E8 & E9). cbn [no_event_read is_info is_numbers is_summary is_tracks is_hits is_select app map] in *. rewrite E1, E2, E3, E4, E5, E9, !map_map. split; [exact L|]. auto 10.
  Qed.
End Deconvolved.
Print Assumptions C117_dorothea.
Print Assumptions C117_sophronia.
Print Assumptions C117_esmeralda.
Print Assumptions C117_beersheba.
Print Assumptions C117_isaura.
