(** What is refused, and with which exception: additions to C12, C24, C38, C49, C52, C58, C66, C76, C79 and C85 *)
From Coq Require Import NArith.
From Verif Require Import Base Arrays PeaksModel BuffersModel CorrModel DbModel DbProps LtModel PaolinaModel ConfigModel ConfigSpec ChanModel ChanSpec ChanProps FeeModel KrModel.
Local Open Scope Q_scope.

(** C66: the longest event must last a whole number of microseconds, and at least a buffer *)
Theorem C66_max_time mus mt buffer : 0 < mus ->
  ((exists n : Z, mt == inject_Z n * mus) -> check_max_time mus mt buffer = Ok (if Qltb mt buffer then buffer else mt)) /\
  (~ (exists n : Z, mt == inject_Z n * mus) -> check_max_time mus mt buffer = Err ValueError).
Proof.
  intros Hm. unfold check_max_time. destruct (Qeqb_spec (mt / mus) (inject_Z (Qfloor (mt / mus)))) as [E|E]; cbn [negb].
  - split; [intros _; destruct (Qltb mt buffer); reflexivity|]. intros N. exfalso. apply N. exists (Qfloor (mt / mus)). rewrite <- E. field. lra.
  - split; [|reflexivity]. intros (n & Hn). exfalso. apply E. assert (Q : mt / mus == inject_Z n) by (rewrite Hn; field; lra). rewrite Q at 1. rewrite (Qfloor_comp _ _ Q), Qfloor_Z. reflexivity.
Qed.
Print Assumptions C66_max_time.
Example C66_max_time_ex : check_max_time 1000 5000 8000 = Ok 8000 /\ check_max_time 1000 9000 8000 = Ok 9000 /\ check_max_time 1000 9500 8000 = Err ValueError.
Proof. repeat split; reflexivity. Qed.

(** C58: input files that are neither a name nor a collection of names *)
Theorem C58_not_files expandvars glob ps kwds fi fo : lookup kwds "files_in" = Some fi -> lookup kwds "file_out" = Some fo -> elements fi = None -> city expandvars glob ps kwds = Err TypeError.
Proof. intros H1 H2 H3. unfold city. rewrite H1, H2. destruct fi; try discriminate; reflexivity. Qed.
Print Assumptions C58_not_files.

(** C38: as many abscissas as ordinates are needed *)
Theorem C38_lengths i m xs ys : List.length xs <> List.length ys -> get_maps_coefficient i m xs ys = Err ValueError.
Proof. intros H. unfold get_maps_coefficient. destruct (Nat.eqb_spec (List.length xs) (List.length ys)); [contradiction|reflexivity]. Qed.
Print Assumptions C38_lengths.

(** C12: one waveform per sensor *)
Theorem C12_responses ids wfs : (List.length ids = List.length (rows wfs) -> mk_responses ids wfs = Ok {| r_ids := ids; r_wfs := wfs |}) /\ (List.length ids <> List.length (rows wfs) -> mk_responses ids wfs = Err ValueError).
Proof. unfold mk_responses. destruct (Nat.eqb_spec (List.length ids) (List.length (rows wfs))); split; intros; try reflexivity; contradiction. Qed.
Print Assumptions C12_responses.

(** C76: centres that are not in increasing order, a range upside down or one that leaves a centre out, and an empty table *)
Theorem C76_edges_refused c0 c lo hi : (increasing (c0 :: c) = true -> ~ lo < hi \/ c0 < lo \/ hi < last (c0 :: c) c0 -> binedges_from_bincenters (c0 :: c) (Some (lo, hi)) = Err ValueError) /\
  binedges_from_bincenters [] (Some (lo, hi)) = Err IndexError.
Proof.
  split; [|reflexivity]. intros I H. unfold binedges_from_bincenters. rewrite I. cbn [negb]. destruct (Qltb_spec lo hi) as [L|L]; cbn [negb]; [|reflexivity].
  destruct (Qltb_spec c0 lo) as [A|A]; cbn [orb]; [reflexivity|]. destruct (Qltb_spec hi (last (c0 :: c) c0)) as [B|B]; [reflexivity|]. exfalso. destruct H as [H|[H|H]]; [exact (H L)|apply (Qlt_not_le _ _ H A)|apply (Qlt_not_le _ _ H B)].
Qed.
Print Assumptions C76_edges_refused.
Example C76_edges_ex : increasing [1; 2; 4] = true /\ binedges_from_bincenters [1; 2; 4] (Some (0, 5)) = Ok [0; (1 + 2) / 2; (2 + 4) / 2; 5] /\ binedges_from_bincenters [1; 2; 4] (Some (0, 3)) = Err ValueError.
Proof. repeat split; reflexivity. Qed.
Theorem C76_empty_table n r : lighttable_function [] n r = Err IndexError.
Proof. reflexivity. Qed.
Print Assumptions C76_empty_table.

(** C24: with no voxel closer to the extreme than the radius of the big sphere *)
Theorem C24_nothing_close nodes dist ext big small : (forall n, In n nodes -> big < dist (vid ext) (vid n)) -> find_highest_encapsulating_node nodes dist ext big small = Err ValueError.
Proof.
  intros H. unfold find_highest_encapsulating_node. replace (filter _ nodes) with (@nil voxel); [reflexivity|]. symmetry. induction nodes as [|n l IH]; [reflexivity|]. cbn [filter].
  destruct (Qle_bool (dist (vid ext) (vid n)) big) eqn:E; [|apply IH; intros; apply H; now right]. apply Qle_bool_iff in E. specialize (H n (or_introl eq_refl)). lra.
Qed.
Print Assumptions C24_nothing_close.

(** C49: a noise table with too many or too few rows for its sensors and bins; [sensors] and [bins] are counted without repetition *)
Theorem C49_noise_size bs ps run bins : let rows := current_open (Z.abs run) ps in let sensors := current_open (Z.abs run) bs in
  NoDup bins -> (forall b, In b bins <-> In b (map f_bin rows)) -> List.length rows <> (List.length sensors * List.length bins)%nat -> sipm_noise bs ps run = Err ValueError.
Proof.
  cbv zeta. intros N I H. unfold sipm_noise, reshape. rewrite !map_length, !(Permutation_length (sort_by_perm _ _)).
  assert (E : List.length (distinct (map f_bin (current_open (Z.abs run) ps))) = List.length bins).
  { destruct (distinct_spec (map f_bin (current_open (Z.abs run) ps))) as [D1 D2]. apply Nat.le_antisymm; [apply (NoDup_incl_length D1)|apply (NoDup_incl_length N)]; intros b Hb; [apply I, D2, Hb|apply D2, I, Hb]. }
  rewrite E. destruct (Nat.eqb_spec (List.length (current_open (Z.abs run) ps)) (List.length (current_open (Z.abs run) bs) * List.length bins)); [contradiction|reflexivity].
Qed.
Print Assumptions C49_noise_size.

(** C79: a PMT whose box of the electronics has no noise *)
Theorem C79_no_box noise mapping sens_id pmt s box before after : nth_error sens_id pmt = Some s -> mapping = (before ++ (s, box) :: after)%list -> (forall m, In m before -> fst m <> s) -> (List.length noise <= box)%nat ->
  get_low_frequency_noise noise mapping sens_id pmt = Err IndexError.
Proof.
  intros H1 -> Hb Hn. unfold get_low_frequency_noise. rewrite H1. rewrite filter_app. replace (filter _ before) with (@nil (Z * nat)).
  - cbn [app filter fst]. rewrite Z.eqb_refl. cbn [snd]. now rewrite (proj2 (nth_error_None noise box) Hn).
  - symmetry. induction before as [|m l IH]; [reflexivity|]. cbn [filter]. destruct (Z.eqb_spec (fst m) s) as [E|E]; [exfalso; now apply (Hb m (or_introl eq_refl))|]. apply IH. intros; apply Hb; now right.
Qed.
Print Assumptions C79_no_box.

(** C85: a fit for a table that was not created *)
Theorem C85_store_no_table f32 ops f x : (forall o, In o ops -> proper o) -> run f32 [] ops = Ok f -> params_of ops (f_table x) = None -> step f32 f (Store x) = Err KeyError.
Proof. intros Pr E P. destruct (proj2 (run_known f32 ops Pr) f E) as (_ & K & _). cbn [step]. unfold store_channel_fit. pose proof (K (f_table x)) as T. rewrite P in T. now rewrite T. Qed.
Print Assumptions C85_store_no_table.
Example C85_store_no_table_ex : exists f, run (fun x => x) [] [Create "pmt" "dfunc" ["gain"]]%string = Ok f /\ params_of [Create "pmt" "dfunc" ["gain"]]%string "FIT_pmt_other" = None.
Proof. eexists. split; reflexivity. Qed.

(** C52: a position algorithm that ends without clusters and without failing *)
Theorem C52_no_cluster xys v charges rms reco e p ps : positions xys (r_ids (p_sipms p)) = Ok ps -> reco ps (charges p) = Ok (Some []) -> add_s2 xys v charges rms reco e p = Err IndexError.
Proof. intros H1 H2. unfold add_s2, locate. rewrite H1. cbn [rbind]. now rewrite H2. Qed.
Print Assumptions C52_no_cluster.
