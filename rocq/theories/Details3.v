(** Exact values and refusals: additions to C106, C113, C116 and C119 *)
From Coq Require Import String.
From Verif Require Import Base ConfigModel PeaksModel.
From Verif Require Import CalibModel IreneModel NoiseModel HypaModel FeeModel TrigModel DioModel FrunModel IsiModel IsiSpec IsiProps.
From Verif Require Details DorModel UtilModel.
From Verif Require ZemModel KmapModel ZrunModel.
Local Open Scope nat_scope.

(** C106: the rms of an S2 (the function rms of C106_dorothea) is the root of the mean of the squares of the distances to the mean time, both weighted with the samples that are positive, and of
    zero if they are less than two *)
Theorem C106_zrms sqrt p is : Details.over p 0 is -> exists q, DorModel.rms sqrt p = sqrt q /\
  let w := sumF (Details.sample p) is in let t i := nth i (p_times p) 0%Q in
  if List.length is <? 2 then (q == 0)%Q
  else exists mean, (mean * w == sumF (fun i => Details.sample p i * t i) is /\ q * w == sumF (fun i => Details.sample p i * ((t i - mean) * (t i - mean))) is)%Q.
Proof.
  intros H. exists (rms2_above_threshold p 0). split; [reflexivity|]. pose proof (Details.C12_rms p 0 is H) as R. cbv zeta in *. destruct (Nat.ltb_spec (List.length is) 2) as [L|L]; cbn [orb] in R; [exact R|].
  assert (P : (0 < sumF (Details.sample p) is)%Q).
  { destruct H as [_ H]. assert (F : Forall (fun i => (0 < Details.sample p i)%Q) is) by (apply Forall_forall; intros i Hi; apply H; exact Hi). clear -F L.
    assert (G : forall l, Forall (fun i => (0 < Details.sample p i)%Q) l -> (0 <= sumF (Details.sample p) l)%Q) by (induction 1 as [|i l Hi Hl IH]; [unfold sumF; cbn; lra|rewrite sumF_cons; lra]).
    destruct is as [|i is]; [cbn in L; lia|]. inversion F; subst. rewrite sumF_cons. specialize (G is H2). lra. }
  destruct (Qeqb_spec (sumF (Details.sample p) is) 0); [lra|exact R].
Qed.
Print Assumptions C106_zrms.
Example C106_zrms_ex : let p := {| p_times := [10; 20; 30]%Q; p_widths := [1; 1; 1]%Q; p_pmts := {| r_ids := [0]; r_wfs := {| cols := 3; rows := [[1 # 2; -1; 1 # 2]]%Q |} |}; p_sipms := empty_responses |} in
  Details.over p 0 [0; 2] /\ (DorModel.rms (fun x => x) p == 100)%Q.
Proof.
  split; [|vm_compute; reflexivity]. split; [repeat constructor; cbn; intuition discriminate|]. intros i. split.
  - intros [<-|[<-|[]]]; (split; [cbn; lia|vm_compute; reflexivity]).
  - cbn. intros [H1 H2]. destruct i as [|[|[|i]]]; [auto|vm_compute in H2; discriminate|auto|lia].
Qed.

(** C113: an event whose waveforms do not have as many samples as the tables ends the run *)
Theorem C113_shapes butter sqrt pmts n_baseline s s' open_file paths before w after e :
  wf_from_files open_file paths = (before ++ w :: after, e) -> (forall v, In v before -> good_rwf butter sqrt pmts n_baseline s v) -> good_rwf butter sqrt pmts n_baseline s' w ->
  (n_pmt s' * pmt_wl s' <> n_pmt s * pmt_wl s \/ n_sipm s' * sipm_wl s' <> n_sipm s * sipm_wl s) -> isidora butter sqrt pmts n_baseline s open_file paths = Err ValueError.
Proof.
  intros Rd G G' N. unfold isidora. rewrite Rd. assert (W : isidora_event butter sqrt pmts n_baseline s w = Err ValueError).
  { destruct (event_restored butter sqrt pmts n_baseline s' w G') as (z & E & _). revert E. unfold isidora_event. destruct (deconv_pmt _ _ _ _ _) as [cwf|]; [|discriminate]. cbn [rbind].
    unfold fits_table. destruct (Nat.eqb_spec (sumN (map (@List.length Q) cwf)) (n_pmt s' * pmt_wl s')) as [E1|]; cbn [negb]; [|discriminate].
    destruct (rmap (rmap store_float) cwf) as [z'|]; [|discriminate]. cbn [rbind]. destruct (Nat.eqb_spec (sumN (map (@List.length Z) (w_sipm w))) (n_sipm s' * sipm_wl s')) as [E2|]; cbn [negb]; [|discriminate]. intros _.
    rewrite E1, E2. destruct (Nat.eqb_spec (n_pmt s' * pmt_wl s') (n_pmt s * pmt_wl s)); cbn [negb]; [|reflexivity]. destruct (Nat.eqb_spec (n_sipm s' * sipm_wl s') (n_sipm s * sipm_wl s)); [tauto|reflexivity]. }
  assert (X : forall o, isidora_all butter sqrt pmts n_baseline s (before ++ w :: after) o = Err ValueError).
  { clear Rd. induction before as [|v l IH]; intros o; cbn [app isidora_all]; [now rewrite W|]. destruct (event_restored butter sqrt pmts n_baseline s v (G v (or_introl eq_refl))) as (z & -> & _). cbn [rbind]. apply IH. intros; apply G; now right. }
  rewrite X. reflexivity.
Qed.
Print Assumptions C113_shapes.

(** C119: as many weights as data *)
Theorem C119_lengths unbiased frequentist data weights : List.length data <> List.length weights -> UtilModel.weighted_mean_and_var unbiased frequentist data weights = Err TypeError.
Proof. intros H. unfold UtilModel.weighted_mean_and_var, UtilModel.np_average. rewrite (proj2 (Nat.eqb_neq _ _) H). reflexivity. Qed.
Print Assumptions C119_lengths.
Example C119_lengths_ex : UtilModel.weighted_mean_and_var true false [1; 2]%Q [1]%Q = Err TypeError. Proof. reflexivity. Qed.

(** C116: without files, or without the table of one of them, or the run number of the first, there is no map *)
Theorem C116_refused sqrt root2pi fwhm std std0 over_sqrt fit_bin fit_expo fit_gauss fit_sigmoid nearest c pre files : ZrunModel.z_fit c <> ZemModel.OtherFit ->
  let zemrude := ZrunModel.zemrude sqrt root2pi fwhm std std0 over_sqrt fit_bin fit_expo fit_gauss fit_sigmoid nearest c pre in
  zemrude [] = Err ValueError /\ ((exists f, In f files /\ ZrunModel.zf_rows f = None) -> zemrude files = Err (Other 36)) /\ ((exists f l, files = f :: l /\ ZrunModel.zf_run f = None) -> zemrude files = Err (Other 36)).
Proof.
  intros F z. subst z. unfold ZrunModel.zemrude. destruct (ZrunModel.z_fit c) eqn:E; try easy; clear F.
  all: split; [reflexivity|].
  all: assert (R : forall l, (exists f, In f l /\ ZrunModel.zf_rows f = None) -> rmap (fun f => match ZrunModel.zf_rows f with Some t => Ok t | None => Err (Other 36) end) l = Err (Other 36));
    [induction l as [|f l IH]; intros (g & Hg & Eg); [easy|]; cbn [rmap]; destruct Hg as [->|Hg]; [now rewrite Eg|]; destruct (ZrunModel.zf_rows f); cbn [rbind]; [|reflexivity]; rewrite IH by eauto; reflexivity|].
  all: assert (A : (exists f, In f files /\ ZrunModel.zf_rows f = None) -> ZrunModel.source files = Err (Other 36));
    [intros X; unfold ZrunModel.source, ZrunModel.load_dsts; destruct files as [|f l]; [destruct X as (f & [] & _)|]; rewrite (R _ X); reflexivity|].
  all: split; [intros X; rewrite (A X); reflexivity|].
  all: intros (f & l & Ef & En); assert (B : ZrunModel.source files = Err (Other 36)); [|rewrite B; reflexivity].
  all: destruct (rmap (fun f => match ZrunModel.zf_rows f with Some t => Ok t | None => Err (Other 36) end) files) as [ts|x] eqn:T.
  all: unfold ZrunModel.source, ZrunModel.load_dsts; rewrite Ef in *.
  all: try (rewrite T; cbn [rbind]; destruct f as [a b]; cbn in En; subst b; reflexivity).
  all: rewrite T; cbn [rbind]; f_equal; clear - T.
  all: revert T; generalize (f :: l); clear; induction l as [|f l IH]; [discriminate|]; cbn [rmap]; destruct (ZrunModel.zf_rows f); cbn [rbind]; [|congruence]; destruct (rmap _ l) as [ts|y]; cbn [rbind]; [discriminate|]; intros H; apply IH; congruence.
Qed.
Print Assumptions C116_refused.
