(** C121: what a run that fails leaves in its file, for the cities of the reconstruction *)
From Coq Require Import String.
From Verif Require Import Base ConfigModel TablesModel PsfModel DeconvModel PeaksModel BuffersModel.
From Verif Require Import ReadModel.
From Verif Require Import PmapioModel FiltersModel XyModel HitsModel CorrModel EsmModel SophModel SoeModel KrModel PreadModel DorModel SrunModel.
From Verif Require Import PaolinaModel TopoModel ErunModel BeerModel BrunModel IsaModel FrunModel HrunModel IsiModel JobModel.
From Verif Require Import IdWf IdReco JobProofs.
From Verif Require Import HaltBase HaltModel HaltSpec HaltProofs.
Local Open Scope nat_scope.

(** ---- dorothea ---- *)
Lemma kr_link {T} (add : krrow -> T -> T) (adds : list krrow -> T -> T) : (forall t, adds [] t = t) -> (forall r rs t, adds (r :: rs) t = adds rs (add r t)) ->
  forall e t, outcome (kr_write add e t) = rbind (kr_store e) (fun rows => Ok (adds rows t)).
Proof. intros H0 H1 e t. unfold kr_write, kr_store. apply each_rows; assumption. Qed.
Lemma kr_row_event e i j r : kr_row e i j = Ok r -> w_event r = e_event e.
Proof.
  unfold kr_row. intros H.
  repeat (match type of H with rbind ?x _ = Ok _ => destruct x; [cbn [rbind] in H|discriminate] end). injection H as <-. reflexivity.
Qed.

Section Dor.
  Variables (xys : list (Q * Q)) (v : Q) (noise : list nat -> list Q -> Z -> list Q) (sw : Q -> Z) (ct : charge_type) (sqrt : Q -> Q) (atan : Q -> Q -> Q) (qthr : Q) (s : selector).
  Let run := dorothea_run xys v noise sw ct sqrt atan qthr s.
  Let step := dorothea_step xys v noise sw ct sqrt atan qthr s.
  Lemma dor_rows_nil t : dor_add [] [] [] [] 0 0 0 0 t = t.
  Proof. unfold dor_add. rewrite !app_nil_r. destruct t; reflexivity. Qed.
  Lemma dor_rows_cons r rs t : dor_add [] (r :: rs) [] [] 0 0 0 0 t = dor_add [] rs [] [] 0 0 0 0 (dor_add [] [r] [] [] 0 0 0 0 t).
  Proof. unfold dor_add. cbn. rewrite !app_nil_r, <- app_assoc. reflexivity. Qed.
  Lemma dor_one it o : outcome (step it ((fun o => o) o)) = rbind (run [it] o) (fun o => Ok ((fun o => o) o)).
  Proof.
    unfold step, run, dorothea_step. cbn [dorothea_run]. rewrite bind_put. destruct (passed _).
    - rewrite bind_put, bind_call. destruct (build_pointlike_event _ _ _ _ _ _ _ _ _) as [e|]; [|reflexivity]. cbn [rbind]. rewrite bind_put, bind_unit.
      rewrite (kr_link _ (fun rs => dor_add [] rs [] [] 0 0 0 0) dor_rows_nil dor_rows_cons). destruct (kr_store e) as [rows|]; [|reflexivity]. cbn [rbind].
      unfold outcome, put, dor_add. cbn. rewrite ?app_nil_r. reflexivity.
    - cbn. unfold dor_add. cbn. rewrite ?app_nil_r. reflexivity.
  Qed.
  Lemma dor_grows it o t e : step it ((fun o => o) o) = (t, Err e) ->
    (fun it before after => do_info after = do_info before /\ grown fst (pi_event it) (do_filter before) (do_filter after) /\ grown w_event (pi_event it) (do_rows before) (do_rows after)) it ((fun o => o) o) t.
  Proof.
    unfold step, dorothea_step. rewrite bind_put. destruct (passed _); [|discriminate].
    rewrite bind_put, bind_call. destruct (build_pointlike_event _ _ _ _ _ _ _ _ _) as [ev|] eqn:B.
    - rewrite bind_put. rewrite exec_bind. destruct (kr_write _ ev _) as [t1 [[]|e1]] eqn:K; [discriminate|]. intros H. injection H as <- <-.
      apply pointlike_event in B. destruct B as [B _].
      unfold kr_write in K.
      assert (P : forall t u, do_info u = do_info t /\ grown fst (pi_event it) (do_filter t) (do_filter u) /\ grown w_event (pi_event it) (do_rows t) (do_rows u) <->
                  do_info u = do_info t /\ grown fst (pi_event it) (do_filter t) (do_filter u) /\ grown w_event (pi_event it) (do_rows t) (do_rows u)) by (intros; reflexivity).
      eapply (each_rows_left _ _ (fun t u => do_info u = do_info t /\ do_filter u = do_filter t /\ grown w_event (pi_event it) (do_rows t) (do_rows u))) in K.
      + destruct K as (K1 & K2 & K3). rewrite K1, K2. unfold dor_add in *. cbn [do_info do_filter do_rows] in *. rewrite !app_nil_r in *. split; [reflexivity|]. split; [|exact K3].
        apply grown_rows. intros r [<-|[]]. reflexivity.
      + intros t. split; [reflexivity|split; [reflexivity|apply grown_same]].
      + intros [i j] r t u R (H1 & H2 & H3). apply kr_row_event in R. unfold dor_add in H1, H2, H3. cbn [do_info do_filter do_rows] in *. rewrite !app_nil_r in *.
        split; [exact H1|split; [exact H2|]]. eapply grown_more; [|exact H3]. intros x [<-|[]]. rewrite R. exact B.
    - intros H. injection H as <- <-. unfold dor_add. cbn [do_info do_filter do_rows]. rewrite !app_nil_r. split; [reflexivity|]. split; [|apply grown_same].
      apply grown_rows. intros r [<-|[]]. reflexivity.
  Qed.
End Dor.

Theorem C121_dorothea : forall xys v noise sw ct sqrt atan qthr c s files, mk_selector c = Ok s ->
  (forall o e, dorothea_left xys v noise sw ct sqrt atan qthr s files = (o, Some e) -> dorothea xys v noise sw ct sqrt atan qthr c files = Err e /\
     left_by (pmap_from_files files) (first_events (fun o => o) no_output (fun k => dorothea_range xys v noise sw ct sqrt atan qthr (0, Some k) c files))
       (fun it before after => do_info after = do_info before /\ grown fst (pi_event it) (do_filter before) (do_filter after) /\ grown w_event (pi_event it) (do_rows before) (do_rows after)) o e) /\
  (forall o, dorothea_left xys v noise sw ct sqrt atan qthr s files = (o, None) <-> dorothea xys v noise sw ct sqrt atan qthr c files = Ok o).
Proof.
  intros xys v noise sw ct sqrt atan qthr c s files Hs. unfold dorothea_left, dorothea, dorothea_range. rewrite Hs. cbn [rbind].
  destruct (city_halts (dorothea_run xys v noise sw ct sqrt atan qthr s) (fun o => o) (dorothea_step xys v noise sw ct sqrt atan qthr s)
    (dor_app xys v noise sw ct sqrt atan qthr s tt) (fun _ => eq_refl) (dor_one xys v noise sw ct sqrt atan qthr s) (pmap_from_files files) no_output _ (dor_grows xys v noise sw ct sqrt atan qthr s)
    _ _ (whole_eq _ _ _) (fun k => whole_eq _ _ _)) as [H E].
  split; [exact H|]. intros o. rewrite E. split; [intros (o1 & H1 & ->); exact H1|eauto].
Qed.
Print Assumptions C121_dorothea.

Ltac h_end := j_end; cbn [fst snd Nat.add].
(** ---- sophronia ---- *)
Section Sop.
  Variable nearest : list (Q * Q * Q) -> Q * Q * Q -> nat.
  Variables (xys : list (Q * Q)) (v : Q) (noise : list nat -> list Q -> Z -> list Q) (sw : Q -> Z) (ct : charge_type) (sqrt : Q -> Q) (atan : Q -> Q -> Q) (qthr : Q) (s : selector).
  Variables (rebin method : arg) (q_thr : Q) (same_peak : bool) (corr : option corrections).
  Let run := sophronia_run nearest xys v noise sw ct sqrt atan qthr s rebin method q_thr same_peak corr.
  Let step := sophronia_step nearest xys v noise sw ct sqrt atan qthr s rebin method q_thr same_peak corr.
  Lemma sop_rows_nil t : sop_add [] [] [] [] [] [] 0 0 0 0 t = t.
  Proof. unfold sop_add. rewrite !app_nil_r. destruct t; reflexivity. Qed.
  Lemma sop_rows_cons r rs t : sop_add [] [] (r :: rs) [] [] [] 0 0 0 0 t = sop_add [] [] rs [] [] [] 0 0 0 0 (sop_add [] [] [r] [] [] [] 0 0 0 0 t).
  Proof. unfold sop_add. h_end. rewrite !app_nil_r, <- app_assoc. reflexivity. Qed.
  Lemma sop_comp a b c d e f i u p q a' b' c' d' e' f' i' u' p' q' t : sop_add a' b' c' d' e' f' i' u' p' q' (sop_add a b c d e f i u p q t) =
    sop_add (a ++ a') (b ++ b') (c ++ c') (d ++ d') (e ++ e') (f ++ f') (i' + i) (u' + u) (p' + p) (q' + q) t.
  Proof. unfold sop_add. j_end. rewrite <- !app_assoc, <- !Nat.add_assoc. reflexivity. Qed.
  Lemma sop_one it o : outcome (step it ((fun o => o) o)) = rbind (run [it] o) (fun o => Ok ((fun o => o) o)).
  Proof.
    unfold step, run, sophronia_step. cbn [sophronia_run]. rewrite bind_put. destruct (passed _) eqn:P.
    - rewrite bind_put, bind_call. destruct (build_pointlike_event _ _ _ _ _ _ _ _ _) as [e|]; [|reflexivity]. cbn [rbind]. rewrite bind_unit.
      rewrite (kr_link _ (fun rs => sop_add [] [] rs [] [] [] 0 0 0 0) sop_rows_nil sop_rows_cons). destruct (kr_store e) as [rows|]; [|reflexivity]. cbn [rbind].
      rewrite bind_call. unfold sophronia_hits. rewrite P. cbn [negb].
      destruct (sipms_as_hits _ _ _ _ _ _ _ _ _ _ _ _ _) as [made|]; [|reflexivity]. cbn [rbind].
      rewrite bind_unit, bind_put. destruct (0 <? count_valid_hits (hits_table made)); cbn [negb].
      + rewrite bind_call. destruct corr as [k|].
        * destruct (snd (correct _ _ _ _ _ _ _ _)) as [l|]; [|reflexivity]. rewrite out_put. cbn [rbind]. rewrite !bind_put, out_put, !sop_comp. unfold sop_add. h_end. cbn [app]. rewrite ?app_nil_r. reflexivity.
        * rewrite out_put. cbn [rbind]. rewrite !bind_put, out_put, !sop_comp. unfold sop_add. h_end. cbn [app]. rewrite ?app_nil_r. reflexivity.
      + rewrite out_ret. cbn [rbind]. rewrite !bind_put, out_put, !sop_comp. unfold sop_add. h_end. cbn [app]. rewrite ?app_nil_r. reflexivity.
    - rewrite out_ret; unfold sop_add. h_end. rewrite ?app_nil_r. reflexivity.
  Qed.
  Definition sop_more (it : pitem) (before after : sout) : Prop :=
    so_info after = so_info before /\ so_hits after = so_hits before /\ grown fst (pi_event it) (so_filter before) (so_filter after) /\ grown fst (pi_event it) (so_valid before) (so_valid after) /\
    grown w_event (pi_event it) (so_rows before) (so_rows after).
  Lemma sop_grows it o t e : step it ((fun o => o) o) = (t, Err e) -> sop_more it ((fun o => o) o) t.
  Proof.
    unfold step, sophronia_step, sop_more. rewrite bind_put. destruct (passed _); [|discriminate].
    rewrite bind_put, bind_call. destruct (build_pointlike_event _ _ _ _ _ _ _ _ _) as [ev|] eqn:B.
    2:{ intros H. injection H as <- <-. unfold sop_add. cbn [so_info so_hits so_filter so_valid so_rows]. rewrite !app_nil_r. split; [reflexivity|]. split; [reflexivity|]. split; [|split; apply grown_same].
        apply grown_rows. intros r [<-|[]]. reflexivity. }
    apply pointlike_event in B. destruct B as [B _]. rewrite exec_bind. destruct (kr_write _ ev _) as [t1 x] eqn:K.
    unfold kr_write in K.
    eapply (each_rows_left _ _ (fun t u => so_info u = so_info t /\ so_hits u = so_hits t /\ so_filter u = so_filter t /\ so_valid u = so_valid t /\ grown w_event (pi_event it) (so_rows t) (so_rows u))) in K.
    2:{ intros u. repeat (split; [reflexivity|]). apply grown_same. }
    2:{ intros [i j] r u w R (H1 & H2 & H3 & H4 & H5). apply kr_row_event in R. unfold sop_add in H1, H2, H3, H4, H5. cbn [so_info so_hits so_filter so_valid so_rows] in *. rewrite !app_nil_r in *.
        repeat (split; [assumption|]). eapply grown_more; [|exact H5]. intros y [<-|[]]. rewrite R. exact B. }
    destruct K as (K1 & K2 & K3 & K4 & K5). unfold sop_add in K1, K2, K3, K4, K5. cbn [so_info so_hits so_filter so_valid so_rows] in *. rewrite !app_nil_r in *.
    assert (F : grown fst (pi_event it) (so_filter o) (so_filter o ++ [(pi_event it, true)])) by (apply grown_rows; intros r [<-|[]]; reflexivity).
    destruct x as [[]|e1].
    2:{ intros H. injection H as <- <-. rewrite K1, K2, K3, K4. repeat (split; [reflexivity|]). split; [exact F|]. split; [apply grown_same|exact K5]. }
    rewrite bind_call. destruct (sipms_as_hits _ _ _ _ _ _ _ _ _ _ _ _ _) as [made|].
    2:{ intros H. injection H as <- <-. rewrite K1, K2, K3, K4. repeat (split; [reflexivity|]). split; [exact F|]. split; [apply grown_same|exact K5]. }
    rewrite exec_bind. rewrite bind_put. destruct (0 <? count_valid_hits (hits_table made)); [|discriminate].
    rewrite bind_call. destruct (match corr with Some _ => _ | None => _ end) as [l|e1]; [discriminate|]. intros H. injection H as <- <-.
    unfold sop_add. cbn [so_info so_hits so_filter so_valid so_rows]. rewrite !app_nil_r, K1, K2, K3, K4. repeat (split; [reflexivity|]). split; [exact F|]. split; [|exact K5].
    apply grown_rows. intros r [<-|[]]. reflexivity.
  Qed.
End Sop.

Theorem C121_sophronia : forall nearest xys v noise sw ct sqrt atan qthr c s rebin method q_thr same_peak corr files, mk_selector c = Ok s ->
  (forall o e, sophronia_left nearest xys v noise sw ct sqrt atan qthr s rebin method q_thr same_peak corr files = (o, Some e) ->
     sophronia nearest xys v noise sw ct sqrt atan qthr c rebin method q_thr same_peak corr files = Err e /\
     left_by (pmap_from_files files) (first_events (fun o => o) nothing_done (fun k => sophronia_range nearest xys v noise sw ct sqrt atan qthr (0, Some k) c rebin method q_thr same_peak corr files))
       (fun it before after => so_info after = so_info before /\ so_hits after = so_hits before /\ grown fst (pi_event it) (so_filter before) (so_filter after) /\ grown fst (pi_event it) (so_valid before) (so_valid after) /\
          grown w_event (pi_event it) (so_rows before) (so_rows after)) o e) /\
  (forall o, sophronia_left nearest xys v noise sw ct sqrt atan qthr s rebin method q_thr same_peak corr files = (o, None) <->
     sophronia nearest xys v noise sw ct sqrt atan qthr c rebin method q_thr same_peak corr files = Ok o).
Proof.
  intros nearest xys v noise sw ct sqrt atan qthr c s rebin method q_thr same_peak corr files Hs. unfold sophronia_left, sophronia, sophronia_range. rewrite Hs. cbn [rbind].
  destruct (city_halts (sophronia_run nearest xys v noise sw ct sqrt atan qthr s rebin method q_thr same_peak corr) (fun o => o) (sophronia_step nearest xys v noise sw ct sqrt atan qthr s rebin method q_thr same_peak corr)
    (soph_app nearest xys v noise sw ct sqrt atan qthr s rebin method q_thr same_peak corr tt) (fun _ => eq_refl) (sop_one nearest xys v noise sw ct sqrt atan qthr s rebin method q_thr same_peak corr) (pmap_from_files files) nothing_done _
    (sop_grows nearest xys v noise sw ct sqrt atan qthr s rebin method q_thr same_peak corr)
    _ _ (whole_eq _ _ _) (fun k => whole_eq _ _ _)) as [H E].
  split; [exact H|]. intros o. rewrite E. split; [intros (o1 & H1 & ->); exact H1|eauto].
Qed.
Print Assumptions C121_sophronia.

(** ---- the tracks ---- *)
Section Tr.
  Context {T : Type}.
  Variable add : list (Z * bool) -> list (Z * bool) -> list summary -> list ohit -> list track_row -> T -> T.
  Variables (round5 : Q -> Q) (paths : list voxel -> list voxel * (voxel -> voxel -> Q)) (norm : pos3 -> Q).
  Variables (vox_size : Q * Q * Q) (strict : bool) (energy_threshold : Q) (min_voxels : nat) (blob_radius : Q) (scan_radius : option Q) (max_num_hits : Z).
  Hypothesis comp : forall a b c d e a' b' c' d' e' t, add a' b' c' d' e' (add a b c d e t) = add (a ++ a') (b ++ b') (c ++ c') (d ++ d') (e ++ e') t.
  Let step := tracks_step add round5 paths norm vox_size strict energy_threshold min_voxels blob_radius scan_radius max_num_hits.
  Let info := write_tracks_info round5 paths norm vox_size strict energy_threshold min_voxels blob_radius scan_radius max_num_hits.
  Lemma tracks_link y event hits t : outcome (step y event hits t) =
    rbind (info y event hits) (fun w => Ok (add [(event, w_hits_passed w)] (map (pair event) (w_topology w)) (w_summary w) (w_hits w) (w_tracks w) t)).
  Proof.
    unfold step, info, tracks_step, write_tracks_info. destruct hits as [|h hits]; [reflexivity|]. rewrite bind_put, bind_call.
    destruct (create_extract_track_blob_info _ _ _ _ _ _ _ _ _ _ _ _) as [[[rows out] flag]|]; [|reflexivity]. cbn [rbind]. rewrite bind_call.
    destruct (make_event_summary _ _ _ _) as [sm|]; [|reflexivity]. cbn [rbind]. rewrite !bind_put, out_put. cbn [w_hits_passed w_topology w_summary w_hits w_tracks map].
    rewrite !comp. rewrite ?app_nil_r. reflexivity.
  Qed.
  Lemma tracks_left y event hits t u e : step y event hits t = (u, Err e) -> u = add [(event, true)] [] [] [] [] t.
  Proof.
    unfold step, tracks_step. destruct hits as [|h hits]; [discriminate|]. rewrite bind_put, bind_call.
    destruct (create_extract_track_blob_info _ _ _ _ _ _ _ _ _ _ _ _) as [[[rows out] flag]|]; [|intros H; now injection H]. rewrite bind_call.
    destruct (make_event_summary _ _ _ _) as [sm|]; [discriminate|intros H; now injection H].
  Qed.
End Tr.

(** ---- esmeralda ---- *)
Section Esm.
  Context {K : Type}.
  Variable nearest : list (Q * Q * Q) -> Q * Q * Q -> nat.
  Variable others : hit -> nat.
  Variables (round5 : Q -> Q) (paths : list voxel -> list voxel * (voxel -> voxel -> Q)) (norm : pos3 -> Q).
  Variables (m : list kbin) (dvs : list (option Q)) (method : norm_method) (xy : option region) (apply_temp apply_z : bool).
  Variables (radius th : Q) (same_peak : bool).
  Variables (vox_size : Q * Q * Q) (strict : bool) (ethr : Q) (minv : nat) (blob : Q) (scan : option Q) (maxh : Z).
  Let run := esmeralda_run (K := K) nearest others round5 paths norm m dvs method xy apply_temp apply_z radius th same_peak vox_size strict ethr minv blob scan maxh.
  Let step := esmeralda_step (K := K) nearest others round5 paths norm m dvs method xy apply_temp apply_z radius th same_peak vox_size strict ethr minv blob scan maxh.
  Lemma esm_one it o : outcome (step it ((fun o => o) o)) = rbind (run [it] o) (fun o => Ok ((fun o => o) o)).
  Proof.
    unfold step, run, esmeralda_step. cbn [esmeralda_run]. rewrite bind_put, bind_call. destruct (esmeralda_hits _ _ _ _ _ _ _ _ _ _ _) as [hits|]; [|reflexivity]. cbn [rbind].
    rewrite bind_unit, tracks_link.
    2:{ intros. unfold esm_add. h_end. rewrite ?app_nil_r, ?map_app, <- ?app_assoc. reflexivity. }
    destruct (write_tracks_info _ _ _ _ _ _ _ _ _ _ _ _ _) as [w|]; [|reflexivity]. cbn [rbind]. rewrite !bind_put. rewrite out_put; unfold esm_add. h_end. rewrite ?app_nil_r. reflexivity.
  Qed.
  Lemma esm_grows it (o : eout K) t e : step it ((fun o => o) o) = (t, Err e) ->
    (fun it before after => eo_info after = eo_info before /\ eo_topology after = eo_topology before /\ eo_summary after = eo_summary before /\ eo_hits after = eo_hits before /\
       eo_tracks after = eo_tracks before /\ eo_kdst after = eo_kdst before /\ grown fst (i_event it) (eo_select before) (eo_select after)) it ((fun o => o) o) t.
  Proof.
    unfold step, esmeralda_step. rewrite bind_put, bind_call. destruct (esmeralda_hits _ _ _ _ _ _ _ _ _ _ _) as [hits|].
    - rewrite exec_bind. match goal with |- match ?p ?x with _ => _ end = _ -> _ => destruct (p x) as [u [[]|e1]] eqn:P end; [discriminate|]. intros H. injection H as <- <-. apply tracks_left in P. subst u.
      unfold esm_add. h_end. rewrite !app_nil_r. repeat (split; [reflexivity|]). apply grown_rows. intros r [<-|[]]. reflexivity.
    - intros H. injection H as <- <-. unfold esm_add. h_end. rewrite !app_nil_r. repeat (split; [reflexivity|]). apply grown_same.
  Qed.
End Esm.

Theorem C121_esmeralda : forall {K} (kdst_event : K -> Z) nearest others round5 paths norm m dvs method xy apply_temp apply_z radius th same_peak vox_size strict ethr minv blob scan maxh files,
  (forall o e, esmeralda_left kdst_event nearest others round5 paths norm m dvs method xy apply_temp apply_z radius th same_peak vox_size strict ethr minv blob scan maxh files = (o, Some e) ->
     esmeralda kdst_event nearest others round5 paths norm m dvs method xy apply_temp apply_z radius th same_peak vox_size strict ethr minv blob scan maxh files = Err e /\
     left_by (hits_and_kdst_from_files fst kdst_event files)
       (first_events (fun o => o) no_event_done (fun k => esmeralda_range kdst_event nearest others round5 paths norm m dvs method xy apply_temp apply_z radius th same_peak vox_size strict ethr minv blob scan maxh (0, Some k) files))
       (fun it before after => eo_info after = eo_info before /\ eo_topology after = eo_topology before /\ eo_summary after = eo_summary before /\ eo_hits after = eo_hits before /\
          eo_tracks after = eo_tracks before /\ eo_kdst after = eo_kdst before /\ grown fst (i_event it) (eo_select before) (eo_select after)) o e) /\
  (forall o, esmeralda_left kdst_event nearest others round5 paths norm m dvs method xy apply_temp apply_z radius th same_peak vox_size strict ethr minv blob scan maxh files = (o, None) <->
     esmeralda kdst_event nearest others round5 paths norm m dvs method xy apply_temp apply_z radius th same_peak vox_size strict ethr minv blob scan maxh files = Ok o).
Proof.
  intros. unfold esmeralda_left, esmeralda, esmeralda_range.
  destruct (city_halts (esmeralda_run nearest others round5 paths norm m dvs method xy apply_temp apply_z radius th same_peak vox_size strict ethr minv blob scan maxh) (fun o => o)
    (esmeralda_step nearest others round5 paths norm m dvs method xy apply_temp apply_z radius th same_peak vox_size strict ethr minv blob scan maxh)
    (esm_app nearest others round5 paths norm m dvs method xy apply_temp apply_z radius th same_peak vox_size strict ethr minv blob scan maxh tt) (fun _ => eq_refl)
    (esm_one nearest others round5 paths norm m dvs method xy apply_temp apply_z radius th same_peak vox_size strict ethr minv blob scan maxh) (hits_and_kdst_from_files fst kdst_event files) no_event_done _
    (esm_grows nearest others round5 paths norm m dvs method xy apply_temp apply_z radius th same_peak vox_size strict ethr minv blob scan maxh)
    _ _ (whole_eq _ _ _) (fun k => whole_eq _ _ _)) as [H E].
  split; [exact H|]. intros o. rewrite E. split; [intros (o1 & H1 & ->); exact H1|eauto].
Qed.
Print Assumptions C121_esmeralda.

(** ---- beersheba ---- *)
Section Bee.
  Context {K : Type}.
  Variable nearest : list (Q * Q * Q) -> Q * Q * Q -> nat.
  Variable deconvolution : list (Q * Q * Q) -> Q -> list (Q * Q * Q).
  Variable round6 : Q -> Q.
  Variables (m : list kbin) (dvs : list (option Q)) (method : norm_method) (xy : option region) (c : beer_conf).
  Let run := beersheba_run (K := K) nearest deconvolution round6 m dvs method xy c.
  Let step := beersheba_step (K := K) nearest deconvolution round6 m dvs method xy c.
  Lemma bee_comp a b c0 d e f i u p q a' b' c' d' e' f' i' u' p' q' (t : bout K) : bee_add a' b' c' d' e' f' i' u' p' q' (bee_add a b c0 d e f i u p q t) =
    bee_add (a ++ a') (b ++ b') (c0 ++ c') (d ++ d') (e ++ e') (f ++ f') (i' + i) (u' + u) (p' + p) (q' + q) t.
  Proof. unfold bee_add. j_end. rewrite <- !app_assoc, <- !Nat.add_assoc. reflexivity. Qed.
  Lemma bee_one it o : outcome (step it ((fun o => o) o)) = rbind (run [it] o) (fun o => Ok ((fun o => o) o)).
  Proof.
    unfold step, run, beersheba_step. cbn [beersheba_run]. unfold beersheba_event. rewrite bind_put, bind_call.
    destruct (beersheba_hits _ _ _ _ _ _ _ _ _ _) as [thr|]; [|reflexivity]. cbn [rbind]. rewrite bind_put, bind_call.
    destruct (to_rows 0 thr) as [df|]; [|reflexivity]. cbn [rbind]. rewrite bind_call. destruct (cut_over_Q _ _ df) as [df1|]; [|reflexivity]. cbn [rbind]. rewrite bind_call.
    destruct (drop_isolated _ _ _ df1) as [[|d df2]|]; [| |reflexivity].
    - rewrite out_put, !bee_comp. unfold bee_add. h_end. cbn [app]. rewrite ?app_nil_r. reflexivity.
    - cbn [rbind]. rewrite bind_put, bind_call. destruct (apply_deconvolution _ _ _ _ _ _) as [dec|]; [|reflexivity]. cbn [rbind]. rewrite !bind_put. rewrite out_put, !bee_comp. unfold bee_add. h_end. cbn [app]. rewrite ?app_nil_r. reflexivity.
  Qed.
  Lemma bee_grows it (o : bout K) t e : step it ((fun o => o) o) = (t, Err e) ->
    (fun it before after => br_info after = br_info before /\ br_deco after = br_deco before /\ br_kdst after = br_kdst before /\ grown fst (i_event it) (br_hits before) (br_hits after) /\
       grown fst (i_event it) (br_filter before) (br_filter after)) it ((fun o => o) o) t.
  Proof.
    unfold step, beersheba_step. rewrite bind_put, bind_call.
    destruct (beersheba_hits _ _ _ _ _ _ _ _ _ _) as [thr|].
    2:{ intros H. injection H as <- <-. rewrite ?bee_comp. unfold bee_add. h_end. cbn [app]. rewrite !app_nil_r. repeat (split; [reflexivity|]). split; apply grown_same. }
    assert (G : forall l, grown fst (i_event it) l (l ++ map (pair (i_event it)) thr)) by (intros l; apply grown_rows; intros r Hr; apply in_map_iff in Hr; destruct Hr as (h & <- & _); reflexivity).
    rewrite bind_put, bind_call. destruct (to_rows 0 thr) as [df|].
    2:{ intros H. injection H as <- <-. rewrite ?bee_comp. unfold bee_add. h_end. cbn [app]. rewrite !app_nil_r. repeat (split; [reflexivity|]). split; [apply G|apply grown_same]. }
    rewrite bind_call. destruct (cut_over_Q _ _ df) as [df1|].
    2:{ intros H. injection H as <- <-. rewrite ?bee_comp. unfold bee_add. h_end. cbn [app]. rewrite !app_nil_r. repeat (split; [reflexivity|]). split; [apply G|apply grown_same]. }
    rewrite bind_call. destruct (drop_isolated _ _ _ df1) as [[|d df2]|].
    3:{ intros H. injection H as <- <-. rewrite ?bee_comp. unfold bee_add. h_end. cbn [app]. rewrite !app_nil_r. repeat (split; [reflexivity|]). split; [apply G|apply grown_same]. }
    - discriminate.
    - rewrite bind_put, bind_call. destruct (apply_deconvolution _ _ _ _ _ _) as [dec|]; [discriminate|]. intros H. injection H as <- <-. rewrite ?bee_comp. unfold bee_add. h_end. cbn [app]. rewrite !app_nil_r.
      repeat (split; [reflexivity|]). split; [apply G|]. apply grown_rows. intros r [<-|[]]. reflexivity.
  Qed.
End Bee.

Theorem C121_beersheba : forall {K} (kdst_event : K -> Z) nearest deconvolution round6 m dvs method xy c n_dim sizes files, check_configuration n_dim sizes (b_drop_dist c) (b_cluster_size c) = Ok tt ->
  (forall o e, beersheba_left kdst_event nearest deconvolution round6 m dvs method xy c files = (o, Some e) ->
     beersheba kdst_event nearest deconvolution round6 m dvs method xy c n_dim sizes files = Err e /\
     left_by (hits_and_kdst_from_files fst kdst_event files)
       (first_events (fun o => o) nothing_deconvolved (fun k => beersheba_range kdst_event nearest deconvolution round6 m dvs method xy c (0, Some k) n_dim sizes files))
       (fun it before after => br_info after = br_info before /\ br_deco after = br_deco before /\ br_kdst after = br_kdst before /\ grown fst (i_event it) (br_hits before) (br_hits after) /\
          grown fst (i_event it) (br_filter before) (br_filter after)) o e) /\
  (forall o, beersheba_left kdst_event nearest deconvolution round6 m dvs method xy c files = (o, None) <->
     beersheba kdst_event nearest deconvolution round6 m dvs method xy c n_dim sizes files = Ok o).
Proof.
  intros K kdst_event nearest deconvolution round6 m dvs method xy c n_dim sizes files Hc. unfold beersheba_left, beersheba, beersheba_range. rewrite Hc. cbn [rbind].
  destruct (city_halts (beersheba_run nearest deconvolution round6 m dvs method xy c) (fun o => o) (beersheba_step nearest deconvolution round6 m dvs method xy c)
    (beer_app nearest deconvolution round6 m dvs method xy c tt) (fun _ => eq_refl) (bee_one nearest deconvolution round6 m dvs method xy c) (hits_and_kdst_from_files fst kdst_event files) nothing_deconvolved _
    (bee_grows nearest deconvolution round6 m dvs method xy c) _ _ (whole_eq _ _ _) (fun k => whole_eq _ _ _)) as [H E].
  split; [exact H|]. intros o. rewrite E. split; [intros (o1 & H1 & ->); exact H1|eauto].
Qed.
Print Assumptions C121_beersheba.

(** ---- isaura ---- *)
Section Isa.
  Context {K : Type}.
  Variable others : drow -> nat.
  Variables (round5 : Q -> Q) (paths : list voxel -> list voxel * (voxel -> voxel -> Q)) (norm : pos3 -> Q).
  Variables (vox_size : Q * Q * Q) (strict : bool) (ethr : Q) (minv : nat) (blob : Q) (scan : option Q) (maxh : Z).
  Let run := isaura_run (K := K) others round5 paths norm vox_size strict ethr minv blob scan maxh.
  Let step := isaura_step (K := K) others round5 paths norm vox_size strict ethr minv blob scan maxh.
  Lemma isa_one it o : outcome (step it ((fun o => o) o)) = rbind (run [it] o) (fun o => Ok ((fun o => o) o)).
  Proof.
    unfold step, run, isaura_step. cbn [isaura_run]. rewrite !bind_put, bind_unit, tracks_link.
    2:{ intros. unfold isa_add. h_end. rewrite ?app_nil_r, ?map_app, <- ?app_assoc. reflexivity. }
    destruct (write_tracks_info _ _ _ _ _ _ _ _ _ _ _ _ _) as [w|]; [|reflexivity]. cbn [rbind]. rewrite !bind_put. rewrite out_put; unfold isa_add. h_end. rewrite ?app_nil_r. reflexivity.
  Qed.
  Lemma isa_grows it (o : isaout K) t e : step it ((fun o => o) o) = (t, Err e) ->
    (fun it before after => is_info after = is_info before /\ is_topology after = is_topology before /\ is_summary after = is_summary before /\ is_hits after = is_hits before /\
       is_tracks after = is_tracks before /\ is_kdst after = is_kdst before /\ grown fst (x_event it) (is_select before) (is_select after)) it ((fun o => o) o) t.
  Proof.
    unfold step, isaura_step. rewrite !bind_put. rewrite exec_bind. match goal with |- match ?p ?x with _ => _ end = _ -> _ => destruct (p x) as [u [[]|e1]] eqn:P end; [discriminate|].
    intros H. injection H as <- <-. apply tracks_left in P. subst u.
    unfold isa_add. h_end. rewrite !app_nil_r. repeat (split; [reflexivity|]). apply grown_rows. intros r [<-|[]]. reflexivity.
  Qed.
End Isa.

Theorem C121_isaura : forall {K} (kdst_event : K -> Z) others round5 paths norm vox_size strict ethr minv blob scan maxh files,
  (forall o e, isaura_left kdst_event others round5 paths norm vox_size strict ethr minv blob scan maxh files = (o, Some e) ->
     isaura kdst_event others round5 paths norm vox_size strict ethr minv blob scan maxh files = Err e /\
     left_by (deco_from_files kdst_event files)
       (first_events (fun o => o) no_event_read (fun k => isaura_range kdst_event others round5 paths norm vox_size strict ethr minv blob scan maxh (0, Some k) files))
       (fun it before after => is_info after = is_info before /\ is_topology after = is_topology before /\ is_summary after = is_summary before /\ is_hits after = is_hits before /\
          is_tracks after = is_tracks before /\ is_kdst after = is_kdst before /\ grown fst (x_event it) (is_select before) (is_select after)) o e) /\
  (forall o, isaura_left kdst_event others round5 paths norm vox_size strict ethr minv blob scan maxh files = (o, None) <->
     isaura kdst_event others round5 paths norm vox_size strict ethr minv blob scan maxh files = Ok o).
Proof.
  intros. unfold isaura_left, isaura, isaura_range.
  destruct (city_halts (isaura_run others round5 paths norm vox_size strict ethr minv blob scan maxh) (fun o => o) (isaura_step others round5 paths norm vox_size strict ethr minv blob scan maxh)
    (isa_app others round5 paths norm vox_size strict ethr minv blob scan maxh tt) (fun _ => eq_refl) (isa_one others round5 paths norm vox_size strict ethr minv blob scan maxh) (deco_from_files kdst_event files) no_event_read _
    (isa_grows others round5 paths norm vox_size strict ethr minv blob scan maxh) _ _ (whole_eq _ _ _) (fun k => whole_eq _ _ _)) as [H E].
  split; [exact H|]. intros o. rewrite E. split; [intros (o1 & H1 & ->); exact H1|eauto].
Qed.
Print Assumptions C121_isaura.
