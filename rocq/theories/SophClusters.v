(** C70: hits made from clusters, and examples *)
From Coq Require Import NArith.
From Verif Require Import Base PeaksModel PeaksSpec PeaksMore PeaksThr PmapioModel PmapioProofs FiltersModel HitsModel HitsProofs HitsProps KrModel KrProps SophModel SophSpec SophPeak SophProps SophEnergy.
Local Open Scope Q_scope.

Lemma cluster_hits_ok reco ps qs e : finds_clusters reco ->
  exists hs, cluster_hits reco ps qs e = Ok hs /\
   ((reco ps qs = Ok None /\ hs = [ {| sx := HitsModel.NN; sy := HitsModel.NN; sq := HitsModel.NN; se := e |} ]) \/
    exists cs, reco ps qs = Ok (Some cs) /\ Forall2 (fun c h => sx h = cX c /\ sy h = cY c /\ sq h = cQ c /\ se h * (sumF cQ cs + EPSILON) == cQ c * e) cs hs).
Proof.
  intros H. unfold cluster_hits. destruct (H ps qs) as (o & -> & Ho). cbn [rbind]. destruct o as [cs|]; [|eexists; split; [reflexivity|]; left; auto].
  destruct Ho as [_ Hp]. pose proof eps_pos as He. unfold e_from_q. change (sumQ (map cQ cs)) with (sumF cQ cs). set (D := sumF cQ cs + EPSILON). assert (Dp : 0 < D) by (unfold D; lra).
  destruct (Qeqb_spec D 0) as [C|_]; [lra|]. cbn [rbind]. eexists. split; [reflexivity|]. right. exists cs. split; [reflexivity|].
  rewrite map_map. fold D. clearbody D. clear -Dp. induction cs as [|c cs IH]; [constructor|]. cbn [map map2]. constructor; [|exact IH]. cbn [sx sy sq se]. repeat split. field. lra.
Qed.

Theorem C70_hits_from_clusters xys v noise sw ct greco reco md pm sel ev ts t0 chosen :
  picked 0 (s2_peaks sel) (s2s pm) chosen -> start_of_drift pm sel t0 -> global_ends greco -> finds_clusters reco ->
  (forall i p, In (i, p) chosen -> usable xys p) ->
  exists hits groups,
    hit_builder xys v noise sw ct greco reco (fst (args_of md)) (snd (args_of md)) pm sel ev ts = Ok hits /\ hits = concat groups /\
    Forall (fun h => q_event h = ev /\ q_time h == ts / 1000) hits /\
    Forall2 (fun '(i, p) hs => exists p', rebin_peak p md = Ok p' /\ clusters_of_peak xys v t0 (charge_of ct noise sw) reco i p' hs) chosen groups.
Proof.
  intros Hp Ht Hg Hf Hu. unfold hit_builder, all_hits. rewrite (start_found _ _ _ Ht). cbn [rbind]. rewrite (picked_is _ _ _ Hp).
  assert (Hr : forall ip, In ip chosen -> exists hs, (let '(i, p) := ip in peak_hits xys v noise sw ct greco (cluster_hits reco) (fst (args_of md)) (snd (args_of md)) ev ts t0 i p) = Ok hs /\
     let '(i, p) := ip in Forall (fun h => q_event h = ev /\ q_time h == ts / 1000) hs /\ exists p', rebin_peak p md = Ok p' /\ clusters_of_peak xys v t0 (charge_of ct noise sw) reco i p' hs).
  { intros [i p] Hin. pose proof (Hu i p Hin) as (Hc & Hn & Hi).
    destruct (rebin_peak_spec p md Hc) as (p' & Er & Hc' & _ & Ei & _).
    assert (Hu' : usable xys p') by (unfold usable; rewrite Ei; auto).
    set (R := fun ps k hs => (reco ps (charges_at (charge_of ct noise sw) p' k) = Ok None /\ hs = [ {| sx := HitsModel.NN; sy := HitsModel.NN; sq := HitsModel.NN; se := energy_at p' k |} ]) \/
      exists cs, reco ps (charges_at (charge_of ct noise sw) p' k) = Ok (Some cs) /\ Forall2 (fun c h => sx h = cX c /\ sy h = cY c /\ sq h = cQ c /\ se h * (sumF cQ cs + EPSILON) == cQ c * energy_at p' k) cs hs).
    destruct (peak_hits_ok xys v noise sw ct greco (cluster_hits reco) (fst (args_of md)) (snd (args_of md)) ev ts t0 i p p' R) as (xp & yp & ps & groups & Fps & Fg & _ & E).
    - now rewrite rebin_any_args.
    - assumption.
    - assumption.
    - intros ps k F _. apply cluster_hits_ok. assumption.
    - rewrite E. eexists. split; [reflexivity|]. split.
      + apply Forall_forall. intros h Hh. apply in_concat in Hh. destruct Hh as (hs & Hhs & Hh). apply in_map2 in Hhs.
        destruct Hhs as (k & g & _ & _ & ->). apply in_map_iff in Hh. destruct Hh as (h' & <- & _). cbn [q_event q_time]. split; [reflexivity|field].
      + exists p'. split; [assumption|]. split.
        * apply Forall_forall. intros h Hh. apply in_concat in Hh. destruct Hh as (hs & Hhs & Hh). apply in_map2 in Hhs.
          destruct Hhs as (k & g & _ & _ & ->). apply in_map_iff in Hh. destruct Hh as (h' & <- & _). reflexivity.
        * eexists. split; [|reflexivity]. eapply Forall2_map2_seq; [exact Fg|]. intros k hs _ Ek. split.
          { apply Forall_forall. intros h Hh. apply in_map_iff in Hh. destruct Hh as (h' & <- & _). cbn [q_Z]. ring. }
          exists ps. split; [assumption|]. destruct Ek as [[E1 ->]|(cs & E1 & F)]; [left|right].
          { split; [assumption|]. eexists. split; [reflexivity|]. repeat split. }
          { exists cs. split; [assumption|]. clear -F. revert F. generalize (sumF cQ cs + EPSILON). intros T F. induction F as [|c h cs hs H F IH]; [constructor|]. cbn [map]. constructor; [exact H|exact IH]. } }
  destruct (rmap_all_forall2 _ _ chosen Hr) as (l & El & Fl). rewrite El. cbn [rbind].
  eexists _, l. split; [reflexivity|]. split; [reflexivity|]. split.
  - apply Forall_concat. clear -Fl. induction Fl as [|[i p] hs m l [H _] F IH]; constructor; assumption.
  - clear -Fl. induction Fl as [|[i p] hs m l [_ H] F IH]; constructor; assumption.
Qed.
Print Assumptions C70_hits_from_clusters.

(** ---------- examples ---------- *)
Definition ex_s2 (t : Q) : peak :=
  {| p_times := [t; t + 1000; t + 2000; t + 3000]; p_widths := [1000; 1000; 1000; 1000];
     p_pmts := {| r_ids := [0; 1]%nat; r_wfs := {| cols := 4; rows := [[1; 2; 3; 4]; [1; 1; 1; 1]] |} |};
     p_sipms := {| r_ids := [2; 0]%nat; r_wfs := {| cols := 4; rows := [[0; 5; 6; 0]; [0; 0; 2; 0]] |} |} |}.
Definition ex_s1 : peak :=
  {| p_times := [100; 125]; p_widths := [25; 25]; p_pmts := {| r_ids := [0; 1]%nat; r_wfs := {| cols := 2; rows := [[1; 3]; [1; 3]] |} |}; p_sipms := empty_responses |}.
Definition ex_pmap : pmap := {| s1s := [ex_s1; ex_s1]; s2s := [ex_s2 3000; ex_s2 10125] |}.
Definition ex_sel : selection := {| passed := true; s1_peaks := [false; true]; s2_peaks := [false; true] |}.
Definition ex_xys : list (Q * Q) := [(0, 0); (10, 0); (20, 5)].
Definition ex_greco (ps : list (Q * Q)) (qs : list Q) : result (option (list (Q * Q))) := Ok (match ps with [] => None | q :: _ => Some [q] end).

Lemma ex_consistent t : consistent (ex_s2 t).
Proof. unfold consistent, is_mat. cbn. repeat split; try lia; repeat constructor. Qed.
Example C70_hypotheses : picked 0 (s2_peaks ex_sel) (s2s ex_pmap) [(1%nat, ex_s2 10125)] /\ start_of_drift ex_pmap ex_sel 125 /\
  (N.of_nat (length (s2s ex_pmap)) <= 65536)%N /\ global_ends ex_greco /\ usable ex_xys (ex_s2 10125) /\ not_negative (ex_s2 10125) /\
  exists hits, sipms_as_hits ex_xys (1 # 1000) (fun _ qs _ => qs) (fun _ => 1%Z) Raw ex_greco (fst (args_of (ByStride 2))) (snd (args_of (ByStride 2))) 1 ex_pmap ex_sel 7 5000 = Ok hits /\
    map q_npeak hits = [1; 1; 1]%nat /\ map q_X hits = [20; 20; 0] /\ map q_Q hits = [0 + (5 + 0); 6 + (0 + 0); 2 + (0 + 0)] /\ map q_Xpeak hits = [20; 20; 20] /\ Forall (fun h => q_time h == 5) hits.
Proof.
  split; [repeat constructor|]. split; [left; exists 1%nat, ex_s1, []; split; [repeat constructor|reflexivity]|]. split; [cbn; lia|].
  split. { intros ps qs. unfold ex_greco. destruct ps; eexists; (split; [reflexivity|discriminate]). }
  split. { split; [apply ex_consistent|]. split; [discriminate|]. repeat constructor. }
  split. { intros r x Hr Hx. cbn in Hr. destruct Hr as [<-|[<-|[]]]; cbn in Hx; intuition (subst; lra). }
  eexists. split; [vm_compute; reflexivity|]. split; [reflexivity|]. split; [reflexivity|]. split; [reflexivity|]. split; [reflexivity|]. repeat constructor.
Qed.
Definition ex_reco (ps : list (Q * Q)) (qs : list Q) : result (option (list cluster)) :=
  Ok (if Qltb 0 (sumQ qs) then Some [ {| cX := 1; cY := 2; cQ := sumQ qs |} ] else None).
Definition ex_sel2 : selection := {| passed := true; s1_peaks := [false; false]; s2_peaks := [true; true] |}.
Example C70_clusters_hypotheses : finds_clusters ex_reco /\ start_of_drift ex_pmap ex_sel2 3000 /\
  exists hits, hit_builder ex_xys (1 # 1000) (fun _ qs _ => qs) (fun _ => 1%Z) Raw ex_greco ex_reco (fst (args_of (ByThreshold 2))) (snd (args_of (ByThreshold 2))) ex_pmap ex_sel2 7 5000 = Ok hits /\
    map q_npeak hits = [0; 0; 0; 0; 1; 1; 1; 1]%nat /\ map q_X hits = [HitsModel.NN; 1; 1; HitsModel.NN; HitsModel.NN; 1; 1; HitsModel.NN].
Proof.
  split; [|split].
  - intros ps qs. unfold ex_reco. destruct (Qltb_spec 0 (sumQ qs)) as [H|H]; eexists; (split; [reflexivity|]); [|exact I]. split; [discriminate|]. unfold sumF. cbn. lra.
  - right. split; [repeat constructor|]. exists 0%nat, (ex_s2 3000), [(1%nat, ex_s2 10125)]. eexists. split; [repeat constructor|reflexivity].
  - eexists. split; [vm_compute; reflexivity|]. split; reflexivity.
Qed.
