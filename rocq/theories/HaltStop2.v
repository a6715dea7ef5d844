(** C121: what a run that is stopped between two writes leaves in its file, for sophronia, esmeralda, beersheba and isaura *)
From Coq Require Import String.
From Verif Require Import Base ConfigModel TablesModel PsfModel DeconvModel PeaksModel BuffersModel.
From Verif Require Import ReadModel.
From Verif Require Import PmapioModel FiltersModel XyModel HitsModel CorrModel EsmModel SophModel SoeModel KrModel PreadModel DorModel SrunModel.
From Verif Require Import PaolinaModel TopoModel ErunModel BeerModel BrunModel IsaModel FrunModel HrunModel IsiModel JobModel.
From Verif Require Import IdWf IdReco JobProofs.
From Verif Require Import HaltStopSpec.
From Verif Require Import HaltBase HaltModel HaltSpec HaltProofs HaltReco HaltStop.
Local Open Scope nat_scope.

Lemma last_visited {T A} (p : prog T A) : forall t, In (fst (p t)) (visited p t).
Proof. induction p as [a|e|f p IH|k IH]; intros t; cbn [exec visited]; [now left|now left|right; apply IH|apply IH]. Qed.
(** a part of a program, where [P] holds of all the tables that it goes through *)
Lemma part {T A B} (P : T -> Prop) (p : prog T A) (q : A -> prog T B) t0 t : (forall u, In u (visited p t0) -> P u) -> In t (visited (bind p q) t0) ->
  P t \/ exists t1 a, P t1 /\ p t0 = (t1, Ok a) /\ In t (visited (q a) t1).
Proof.
  intros H V. apply in_bind in V. destruct V as [V|(t1 & a & E & V)]; [left; auto|]. right. exists t1, a. split; [|auto]. pose proof (last_visited p t0) as L. rewrite E in L. apply H. exact L.
Qed.
Ltac rows_ok := first [assumption | apply no_rows | apply one_row; reflexivity | apply pair_rows].
(** one write: [lem] says that the property [M] is kept *)
Ltac nxt H M lem := rewrite ?bind_put; apply in_put in H; destruct H as [->|H]; [try (left; exact M); try exact M|];
  match type of H with In _ (visited _ ?u) => let t2 := fresh "w" in set (t2 := u) in *; let M2 := fresh "W" in
    match type of M with ?P ?t => assert (M2 : P t2) by (apply lem; [exact M|rows_ok ..]) end; clearbody t2; clear M; rename M2 into M end.

(** ---- sophronia ---- *)
Section Sop.
  Variable nearest : list (Q * Q * Q) -> Q * Q * Q -> nat.
  Variables (xys : list (Q * Q)) (v : Q) (noise : list nat -> list Q -> Z -> list Q) (sw : Q -> Z) (ct : charge_type) (sqrt : Q -> Q) (atan : Q -> Q -> Q) (qthr : Q) (s : selector).
  Variables (rebin method : arg) (q_thr : Q) (same_peak : bool) (corr : option corrections).
  Let step := sophronia_step nearest xys v noise sw ct sqrt atan qthr s rebin method q_thr same_peak corr.
  Lemma sop_refl it o : sop_more' it o o.
  Proof. split; [reflexivity|repeat split; apply grown_same]. Qed.
  Lemma sop_put it o t f va k h n i u p g : sop_more' it o t -> (forall r, In r f -> fst r = pi_event it) -> (forall r, In r va -> fst r = pi_event it) -> (forall r, In r k -> w_event r = pi_event it) ->
    (forall r, In r h -> fst r = pi_event it) -> sop_more' it o (sop_add f va k h [] n i u p g t).
  Proof. intros (A & B & C & D & E) F1 F2 F3 F4. unfold sop_add. split; [|split; [|split; [|split]]]; h_end; [now rewrite app_nil_r|apply grown_add; assumption..]. Qed.
  Lemma sop_visits it o t : In t (visited (step it) ((fun o => o) o)) -> sop_more' it ((fun o => o) o) t \/ exists t', step it ((fun o => o) o) = (t', Ok tt) /\ sop_same t' t.
  Proof.
    unfold step, sophronia_step. cbv beta. intros H. pose proof (sop_refl it o) as M.
    nxt H M sop_put.
    destruct (passed _); [|left; apply in_ret in H; now subst]. nxt H M sop_put.
    rewrite bind_call. apply in_call in H. destruct (build_pointlike_event _ _ _ _ _ _ _ _ _) as [ev|] eqn:B; [|subst; now left]. apply pointlike_event in B. destruct B as [B _].
    rewrite exec_bind. apply (part (sop_more' it o)) in H.
    2:{ intros u. revert M. intros M V. revert M. revert V. unfold kr_write. apply (in_each _ _ (fun t u => sop_more' it o t -> sop_more' it o u)); [auto|]. intros [i j] r t3 u' E K M3. apply K.
        apply sop_put; [exact M3|apply no_rows|apply no_rows| |apply no_rows]. apply one_row. apply kr_row_event in E. rewrite E. exact B. }
    destruct H as [H|(t3 & [] & M3 & E & H)]; [now left|]. rewrite E. clear E M. rename M3 into M.
    rewrite bind_call. apply in_call in H. destruct (sipms_as_hits _ _ _ _ _ _ _ _ _ _ _ _ _) as [made|]; [|subst; now left].
    rewrite exec_bind. apply (part (sop_more' it o)) in H.
    2:{ intros u V. nxt V M sop_put. destruct (0 <? _); [|apply in_ret in V; now subst]. apply in_call in V. match type of V with match ?r with _ => _ end => destruct r as [hits|] end; [|now subst].
        apply in_put1 in V. destruct V as [->| ->]; [exact M|]. apply sop_put; [exact M|rows_ok ..]. }
    destruct H as [H|(t4 & [] & M4 & E & H)]; [now left|]. rewrite E. clear E M. rename M4 into M. nxt H M sop_put. apply in_put1 in H. destruct H as [->| ->]; [now left|].
    right. eexists. split; [reflexivity|]. repeat split.
  Qed.
End Sop.
Theorem C121_sophronia_stopped : forall nearest xys v noise sw ct sqrt atan qthr c s rebin method q_thr same_peak corr files, mk_selector c = Ok s ->
  forall t, In t (stopped (sophronia_step nearest xys v noise sw ct sqrt atan qthr s rebin method q_thr same_peak corr) (pmap_from_files files) nothing_done) ->
    stopped_by (pmap_from_files files)
      (first_events (fun o => o) nothing_done (fun k => sophronia_range nearest xys v noise sw ct sqrt atan qthr (0, Some k) c rebin method q_thr same_peak corr files)) sop_more' sop_same t.
Proof.
  intros nearest xys v noise sw ct sqrt atan qthr c s rebin method q_thr same_peak corr files Hs.
  apply (city_stops (sophronia_run nearest xys v noise sw ct sqrt atan qthr s rebin method q_thr same_peak corr) (fun o => o) (sophronia_step nearest xys v noise sw ct sqrt atan qthr s rebin method q_thr same_peak corr)
    (soph_app nearest xys v noise sw ct sqrt atan qthr s rebin method q_thr same_peak corr tt) (fun _ => eq_refl) (sop_one nearest xys v noise sw ct sqrt atan qthr s rebin method q_thr same_peak corr)
    (pmap_from_files files) nothing_done sop_more' sop_same (sop_visits nearest xys v noise sw ct sqrt atan qthr s rebin method q_thr same_peak corr)).
  intros k. unfold sophronia_range. rewrite Hs. cbn [rbind]. apply whole_eq.
Qed.
Print Assumptions C121_sophronia_stopped.

(** ---- the tracks ---- *)
Section Tracks.
  Context {T : Type}.
  Variable add : list (Z * bool) -> list (Z * bool) -> list summary -> list ohit -> list track_row -> T -> T.
  Variables (round5 : Q -> Q) (paths : list voxel -> list voxel * (voxel -> voxel -> Q)) (norm : pos3 -> Q).
  Variables (vox_size : Q * Q * Q) (strict : bool) (ethr : Q) (minv : nat) (blob : Q) (scan : option Q) (maxh : Z).
  Lemma tracks_visits y event hits (P : T -> Prop) : (forall t f1 f2 s h r, P t -> (forall x, In x f1 -> fst x = event) -> (forall x, In x f2 -> fst x = event) -> (forall x, In x s -> TopoModel.s_event x = event) ->
      (forall x, In x r -> k_event x = event) -> P (add f1 f2 s h r t)) ->
    forall t u, P t -> In u (visited (tracks_step add round5 paths norm vox_size strict ethr minv blob scan maxh y event hits) t) -> P u.
  Proof.
    intros Padd t u M V. unfold tracks_step in V. pose proof (fun w => tracks_of round5 paths norm vox_size strict ethr minv blob scan maxh y event hits w) as TR. unfold write_tracks_info in TR.
    destruct hits as [|h hits].
    - apply in_put1 in V. destruct V as [->| ->]; [exact M|]. apply Padd; [exact M|rows_ok ..].
    - nxt V M Padd. apply in_call in V. destruct (create_extract_track_blob_info _ _ _ _ _ _ _ _ _ _ _ _) as [[[rows out] flag]|]; [|now subst]. cbn [rbind] in TR. apply in_call in V.
      destruct (make_event_summary _ _ _ _) as [sm|]; [|now subst]. cbn [rbind] in TR. destruct (TR _ eq_refl) as [T1 T2]. cbn [w_summary w_tracks] in T1, T2. rewrite Forall_forall in T1, T2.
      nxt V M Padd. nxt V M Padd. nxt V M Padd. apply in_put1 in V. destruct V as [->| ->]; [exact M|]. apply Padd; [exact M|rows_ok ..].
  Qed.
End Tracks.

(** ---- esmeralda ---- *)
Section Esm.
  Context {K : Type}.
  Variable nearest : list (Q * Q * Q) -> Q * Q * Q -> nat.
  Variable others : hit -> nat.
  Variables (round5 : Q -> Q) (paths : list voxel -> list voxel * (voxel -> voxel -> Q)) (norm : pos3 -> Q).
  Variables (m : list kbin) (dvs : list (option Q)) (method : norm_method) (xy : option region) (apply_temp apply_z : bool).
  Variables (radius th : Q) (same_peak : bool).
  Variables (vox_size : Q * Q * Q) (strict : bool) (ethr : Q) (minv : nat) (blob : Q) (scan : option Q) (maxh : Z).
  Let step := esmeralda_step (K := K) nearest others round5 paths norm m dvs method xy apply_temp apply_z radius th same_peak vox_size strict ethr minv blob scan maxh.
  Lemma esm_refl (it : hitem (Z * hit) K) o : esm_more it o o /\ eo_kdst o = eo_kdst o.
  Proof. split; [|reflexivity]. split; [reflexivity|repeat split; try apply grown_same]. now left. Qed.
  Lemma esm_put (it : hitem (Z * hit) K) o t f1 f2 s h r n i u : esm_more it o t /\ eo_kdst t = eo_kdst o -> (forall x, In x f1 -> fst x = i_event it) -> (forall x, In x f2 -> fst x = i_event it) ->
    (forall x, In x s -> TopoModel.s_event x = i_event it) -> (forall x, In x h -> c_number x = i_event it) -> (forall x, In x r -> k_event x = i_event it) ->
    esm_more it o (esm_add f1 f2 s h r [] [] n i u t) /\ eo_kdst (esm_add f1 f2 s h r [] [] n i u t) = eo_kdst o.
  Proof.
    intros [(A & B & C & D & E & F & G) N] F1 F2 F3 F4 F5. unfold esm_add. split; [split; [|split; [|split; [|split; [|split; [|split]]]]]|]; h_end; [now rewrite app_nil_r|apply grown_add; assumption..| |]; rewrite app_nil_r; [now left|exact N].
  Qed.
  Lemma esm_visits it o t : In t (visited (step it) ((fun o => o) o)) -> esm_more it ((fun o => o) o) t \/ exists t', step it ((fun o => o) o) = (t', Ok tt) /\ esm_same t' t.
  Proof.
    unfold step, esmeralda_step. cbv beta. intros H. pose proof (esm_refl it o) as M. change ((fun x => esm_more it o x /\ eo_kdst x = eo_kdst o) o) in M.
    rewrite bind_put. apply in_put in H. destruct H as [->|H]; [left; apply M|]. match type of H with In _ (visited _ ?u) => set (t1 := u) in *; assert (M1 : esm_more it o t1 /\ eo_kdst t1 = eo_kdst o) by (apply esm_put; [exact M|rows_ok ..]) end.
    clearbody t1. clear M. rewrite bind_call. apply in_call in H. destruct (esmeralda_hits _ _ _ _ _ _ _ _ _ _ _) as [hits|]; [|subst; left; apply M1].
    rewrite exec_bind. apply (part (fun x => esm_more it o x /\ eo_kdst x = eo_kdst o)) in H.
    2:{ intros u V. revert V. apply tracks_visits with (P := fun x => esm_more it o x /\ eo_kdst x = eo_kdst o); [|exact M1]. intros t2 f1 f2 s h r M2 F1 F2 F3 F4. apply esm_put; try assumption. intros x Hx. apply in_map_iff in Hx. destruct Hx as (y & <- & _). reflexivity. }
    destruct H as [H|(t2 & [] & [M2 N2] & E & H)]; [left; apply H|]. rewrite E. clear E M1 t1. rewrite !bind_put. apply in_put in H. destruct H as [->|H]; [now left|]. destruct M2 as (A & B & C & D & E & F & G).
    apply in_put in H. destruct H as [->|H].
    - left. unfold esm_add. split; [|split; [|split; [|split; [|split; [|split]]]]]; h_end; rewrite ?app_nil_r; try assumption. right. now rewrite N2.
    - right. eexists. split; [reflexivity|]. apply in_put1 in H. destruct H as [->| ->]; unfold esm_add, esm_same; h_end; rewrite ?app_nil_r; repeat split.
  Qed.
End Esm.
Theorem C121_esmeralda_stopped : forall {K} (kdst_event : K -> Z) nearest others round5 paths norm m dvs method xy apply_temp apply_z radius th same_peak vox_size strict ethr minv blob scan maxh files,
  forall t, In t (stopped (esmeralda_step nearest others round5 paths norm m dvs method xy apply_temp apply_z radius th same_peak vox_size strict ethr minv blob scan maxh) (hits_and_kdst_from_files fst kdst_event files) no_event_done) ->
    stopped_by (hits_and_kdst_from_files fst kdst_event files)
      (first_events (fun o => o) no_event_done (fun k => esmeralda_range kdst_event nearest others round5 paths norm m dvs method xy apply_temp apply_z radius th same_peak vox_size strict ethr minv blob scan maxh (0, Some k) files))
      esm_more esm_same t.
Proof.
  intros K kdst_event nearest others round5 paths norm m dvs method xy apply_temp apply_z radius th same_peak vox_size strict ethr minv blob scan maxh files.
  apply (city_stops (esmeralda_run nearest others round5 paths norm m dvs method xy apply_temp apply_z radius th same_peak vox_size strict ethr minv blob scan maxh) (fun o => o)
    (esmeralda_step nearest others round5 paths norm m dvs method xy apply_temp apply_z radius th same_peak vox_size strict ethr minv blob scan maxh)
    (esm_app nearest others round5 paths norm m dvs method xy apply_temp apply_z radius th same_peak vox_size strict ethr minv blob scan maxh tt) (fun _ => eq_refl)
    (esm_one nearest others round5 paths norm m dvs method xy apply_temp apply_z radius th same_peak vox_size strict ethr minv blob scan maxh)
    (hits_and_kdst_from_files fst kdst_event files) no_event_done esm_more esm_same (esm_visits nearest others round5 paths norm m dvs method xy apply_temp apply_z radius th same_peak vox_size strict ethr minv blob scan maxh)).
  intros k. apply whole_eq.
Qed.
Print Assumptions C121_esmeralda_stopped.

(** ---- beersheba ---- *)
Section Bee.
  Context {K : Type}.
  Variable nearest : list (Q * Q * Q) -> Q * Q * Q -> nat.
  Variable deconvolution : list (Q * Q * Q) -> Q -> list (Q * Q * Q).
  Variable round6 : Q -> Q.
  Variables (m : list kbin) (dvs : list (option Q)) (method : norm_method) (xy : option region) (c : beer_conf).
  Let step := beersheba_step (K := K) nearest deconvolution round6 m dvs method xy c.
  Definition bee_inv (it : hitem (Z * hit) K) (o t : bout K) := bee_more it o t /\ br_kdst t = br_kdst o.
  Lemma bee_refl it o : bee_inv it o o.
  Proof. split; [|reflexivity]. split; [reflexivity|repeat split; try apply grown_same]. now left. Qed.
  Lemma bee_put it o t h f d n i u p g : bee_inv it o t -> (forall x, In x h -> fst x = i_event it) -> (forall x, In x f -> fst x = i_event it) -> (forall x, In x d -> fst x = i_event it) ->
    bee_inv it o (bee_add h f d [] [] n i u p g t).
  Proof.
    intros [(A & B & C & D & E) N] F1 F2 F3. unfold bee_add. split; [split; [|split; [|split; [|split]]]|]; h_end; [now rewrite app_nil_r|apply grown_add; assumption..| |]; rewrite app_nil_r; [now left|exact N].
  Qed.
  Lemma bee_visits it o t : In t (visited (step it) ((fun o => o) o)) -> bee_more it ((fun o => o) o) t \/ exists t', step it ((fun o => o) o) = (t', Ok tt) /\ bee_same t' t.
  Proof.
    assert (L : forall t, bee_inv it o t -> forall Q : Prop, bee_more it o t \/ Q) by (intros u [U _]; auto).
    unfold step, beersheba_step. cbv beta. intros H. pose proof (bee_refl it o) as M.
    rewrite bind_put. apply in_put in H. destruct H as [->|H]; [now apply L|]. match type of H with In _ (visited _ ?u) => set (t1 := u) in *; assert (M1 : bee_inv it o t1) by (apply bee_put; [exact M|rows_ok ..]) end. clearbody t1. clear M.
    rewrite bind_call. apply in_call in H. destruct (beersheba_hits _ _ _ _ _ _ _ _ _ _) as [thr|]; [|subst; now apply L].
    rewrite bind_put. apply in_put in H. destruct H as [->|H]; [now apply L|]. match type of H with In _ (visited _ ?u) => set (t2 := u) in *; assert (M : bee_inv it o t2) by (apply bee_put; [exact M1|rows_ok ..]) end. clearbody t2. clear M1 t1.
    rewrite bind_call. apply in_call in H. destruct (to_rows _ _) as [df|]; [|subst; now apply L].
    rewrite bind_call. apply in_call in H. destruct (cut_over_Q _ _ _) as [df2|]; [|subst; now apply L].
    rewrite bind_call. apply in_call in H. destruct (drop_isolated _ _ _ _) as [df3|]; [|subst; now apply L].
    destruct df3 as [|r df3]; [apply in_put1 in H; destruct H as [->| ->]; [now apply L|apply L; apply bee_put; [exact M|rows_ok ..]]|].
    rewrite bind_put. apply in_put in H. destruct H as [->|H]; [now apply L|]. match type of H with In _ (visited _ ?u) => set (t3 := u) in *; assert (M1 : bee_inv it o t3) by (apply bee_put; [exact M|rows_ok ..]) end. clearbody t3. clear M t2.
    rewrite bind_call. apply in_call in H. destruct (apply_deconvolution _ _ _ _ _ _) as [d|]; [|subst; now apply L].
    rewrite bind_put. apply in_put in H. destruct H as [->|H]; [now apply L|]. match type of H with In _ (visited _ ?u) => set (t4 := u) in *; assert (M : bee_inv it o t4) by (apply bee_put; [exact M1|rows_ok ..]) end. clearbody t4. clear M1 t3.
    rewrite bind_put. apply in_put in H. destruct H as [->|H]; [now apply L|]. match type of H with In _ (visited _ ?u) => set (t5 := u) in *; assert (M1 : bee_inv it o t5) by (apply bee_put; [exact M|rows_ok ..]) end. clearbody t5. clear M t4.
    rewrite bind_put. apply in_put in H. destruct H as [->|H]; [now apply L|]. destruct M1 as [(A & B & C & D & E) N]. apply in_put1 in H. destruct H as [->| ->].
    - left. unfold bee_add. split; [|split; [|split; [|split]]]; h_end; rewrite ?app_nil_r; try assumption. right. now rewrite N.
    - right. eexists. split; [reflexivity|]. repeat split.
  Qed.
End Bee.
Theorem C121_beersheba_stopped : forall {K} (kdst_event : K -> Z) nearest deconvolution round6 m dvs method xy c n_dim sizes files, check_configuration n_dim sizes (b_drop_dist c) (b_cluster_size c) = Ok tt ->
  forall t, In t (stopped (beersheba_step nearest deconvolution round6 m dvs method xy c) (hits_and_kdst_from_files fst kdst_event files) nothing_deconvolved) ->
    stopped_by (hits_and_kdst_from_files fst kdst_event files)
      (first_events (fun o => o) nothing_deconvolved (fun k => beersheba_range kdst_event nearest deconvolution round6 m dvs method xy c (0, Some k) n_dim sizes files)) bee_more bee_same t.
Proof.
  intros K kdst_event nearest deconvolution round6 m dvs method xy c n_dim sizes files Hc.
  apply (city_stops (beersheba_run nearest deconvolution round6 m dvs method xy c) (fun o => o) (beersheba_step nearest deconvolution round6 m dvs method xy c)
    (beer_app nearest deconvolution round6 m dvs method xy c tt) (fun _ => eq_refl) (bee_one nearest deconvolution round6 m dvs method xy c) (hits_and_kdst_from_files fst kdst_event files) nothing_deconvolved
    bee_more bee_same (bee_visits nearest deconvolution round6 m dvs method xy c)).
  intros k. unfold beersheba_range. rewrite Hc. cbn [rbind]. apply whole_eq.
Qed.
Print Assumptions C121_beersheba_stopped.

(** ---- isaura ---- *)
Section Isa.
  Context {K : Type}.
  Variable others : drow -> nat.
  Variables (round5 : Q -> Q) (paths : list voxel -> list voxel * (voxel -> voxel -> Q)) (norm : pos3 -> Q).
  Variables (vox_size : Q * Q * Q) (strict : bool) (ethr : Q) (minv : nat) (blob : Q) (scan : option Q) (maxh : Z).
  Let step := isaura_step (K := K) others round5 paths norm vox_size strict ethr minv blob scan maxh.
  Lemma isa_refl (it : ditem (K := K)) o : isa_more it o o.
  Proof. split; [reflexivity|split; [reflexivity|repeat split; apply grown_same]]. Qed.
  Lemma isa_put (it : ditem (K := K)) o t f1 f2 s h r n i u : isa_more it o t -> (forall x, In x f1 -> fst x = x_event it) -> (forall x, In x f2 -> fst x = x_event it) ->
    (forall x, In x s -> TopoModel.s_event x = x_event it) -> (forall x, In x h -> ir_number x = x_event it) -> (forall x, In x r -> k_event x = x_event it) ->
    isa_more it o (isa_add f1 f2 s h r [] [] n i u t).
  Proof.
    intros (A & B & C & D & E & F & G) F1 F2 F3 F4 F5. unfold isa_add. split; [|split; [|split; [|split; [|split; [|split]]]]]; h_end; [now rewrite app_nil_r|now rewrite app_nil_r|apply grown_add; assumption..].
  Qed.
  Lemma isa_visits it o t : In t (visited (step it) ((fun o => o) o)) -> isa_more it ((fun o => o) o) t \/ exists t', step it ((fun o => o) o) = (t', Ok tt) /\ isa_same t' t.
  Proof.
    unfold step, isaura_step. cbv beta. intros H. pose proof (isa_refl it o) as M. nxt H M isa_put. nxt H M isa_put.
    rewrite exec_bind. apply (part (isa_more it o)) in H.
    2:{ intros u V. revert V. apply tracks_visits with (P := isa_more it o); [|exact M]. intros t2 f1 f2 s h r M2 F1 F2 F3 F4. apply isa_put; try assumption. intros x Hx. apply in_map_iff in Hx. destruct Hx as (y & <- & _). reflexivity. }
    destruct H as [H|(t2 & [] & M2 & E & H)]; [now left|]. rewrite E. clear E M. rewrite bind_put. apply in_put in H. destruct H as [->|H]; [now left|].
    right. eexists. split; [reflexivity|]. apply in_put1 in H. destruct H as [->| ->]; unfold isa_add, isa_same; h_end; rewrite ?app_nil_r; repeat (split; [reflexivity|]); eexists; [reflexivity|symmetry; apply app_nil_r].
  Qed.
End Isa.
Theorem C121_isaura_stopped : forall {K} (kdst_event : K -> Z) others round5 paths norm vox_size strict ethr minv blob scan maxh files,
  forall t, In t (stopped (isaura_step others round5 paths norm vox_size strict ethr minv blob scan maxh) (deco_from_files kdst_event files) no_event_read) ->
    stopped_by (deco_from_files kdst_event files)
      (first_events (fun o => o) no_event_read (fun k => isaura_range kdst_event others round5 paths norm vox_size strict ethr minv blob scan maxh (0, Some k) files)) isa_more isa_same t.
Proof.
  intros K kdst_event others round5 paths norm vox_size strict ethr minv blob scan maxh files.
  apply (city_stops (isaura_run others round5 paths norm vox_size strict ethr minv blob scan maxh) (fun o => o) (isaura_step others round5 paths norm vox_size strict ethr minv blob scan maxh)
    (isa_app others round5 paths norm vox_size strict ethr minv blob scan maxh tt) (fun _ => eq_refl) (isa_one others round5 paths norm vox_size strict ethr minv blob scan maxh) (deco_from_files kdst_event files) no_event_read
    isa_more isa_same (isa_visits others round5 paths norm vox_size strict ethr minv blob scan maxh)).
  intros k. apply whole_eq.
Qed.
Print Assumptions C121_isaura_stopped.
