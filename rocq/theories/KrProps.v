(** C52: rows of the pointlike events *)
From Verif Require Import Base PeaksModel PmapioModel FiltersModel KrModel KrSpec.
Local Open Scope nat_scope.

Lemma chosen_marked flags l : length flags = length l -> marked flags l (chosen flags l).
Proof. revert l. induction flags as [|[] flags IH]; intros [|p l] H; try discriminate; [constructor|..]; unfold chosen in *; cbn in *; constructor; apply IH; lia. Qed.
Lemma marked_chosen flags l out : marked flags l out -> chosen flags l = out.
Proof. unfold chosen. induction 1; cbn; [reflexivity|now f_equal|assumption]. Qed.

Lemma rmap_all_forall2 {A B} (f : A -> result B) (P : A -> B -> Prop) l : (forall x, In x l -> exists y, f x = Ok y /\ P x y) -> exists out, rmap f l = Ok out /\ Forall2 P l out.
Proof.
  induction l as [|a l IH]; intros H; [exists []; split; [reflexivity|constructor]|]. destruct (H a (or_introl eq_refl)) as (b & E & Hb). destruct IH as (out & E' & H'); [intros; apply H; now right|].
  exists (b :: out). cbn. rewrite E, E'. split; [reflexivity|now constructor].
Qed.
Lemma F2_map_l {A B C} (g : A -> B) (P : B -> C -> Prop) l out : Forall2 (fun a => P (g a)) l out -> Forall2 P (map g l) out.
Proof. induction 1; constructor; assumption. Qed.
Lemma list_prod_map_l {A B C} (g : A -> B) (l : list A) (m : list C) : list_prod (map g l) m = map (fun '(a, c) => (g a, c)) (list_prod l m).
Proof. induction l as [|a l IH]; [reflexivity|]. cbn. rewrite map_app, IH. f_equal. rewrite map_map. reflexivity. Qed.
Lemma item_map {A B} (f : A -> B) l i a : nth_error l i = Some a -> item (map f l) i = Ok (f a).
Proof. intros H. unfold item. now rewrite (map_nth_error f _ _ H). Qed.
Lemma item_repeat {A} (a : A) n i : i < n -> item (repeat a n) i = Ok a.
Proof. intros H. unfold item. rewrite (nth_error_nth' _ a) by (now rewrite repeat_length). now rewrite nth_repeat. Qed.

Section Kr.
  Variable sipm_xys : list (Q * Q).
  Variable drift_v : Q.
  Variable charges : peak -> list Q.
  Variable rms : peak -> Q.
  Variable reco : list (Q * Q) -> list Q -> result (option (list krcluster)).
  Variable cluster_of : peak -> option krcluster.

  (** a peak whose SiPMs are in the database, that has some SiPM, and whose position is [cluster_of] *)
  Definition located (p : peak) : Prop :=
    charges p <> [] /\ exists xys, r_ids (p_sipms p) <> [] /\ fancy sipm_xys (r_ids (p_sipms p)) = Ok xys /\
    match cluster_of p with
    | Some c => exists more, reco xys (charges p) = Ok (Some (c :: more))
    | None => reco xys (charges p) = Ok None
    end.

  Definition zs (l1 : list peak) (p : peak) : list (option Q) :=
    match cluster_of p with Some _ => map (fun q => Some ((time_at_max_energy p - time_at_max_energy q) * drift_v)%Q) l1 | None => repeat NN (length l1) end.
  Definition dts (l1 : list peak) (p : peak) : list (option Q) :=
    match cluster_of p with Some _ => map (fun q => Some ((time_at_max_energy p - time_at_max_energy q) * (1 / mus))%Q) l1 | None => repeat NN (length l1) end.
  Definition cl (p : peak) : krcluster := match cluster_of p with Some c => c | None => NNN end.
  Definition zr (p : peak) : option Q := match cluster_of p with Some _ => Some (rms p / mus)%Q | None => NN end.
  Definition built (ev : Z) (t : Q) (l1 l2 : list peak) : krevent :=
    {| e_event := ev; e_time := t; e_nS1 := length l1; e_S1w := map (fun p => Some (peak_width p)) l1; e_S1h := map (fun p => Some (height p)) l1;
       e_S1e := map (fun p => Some (total_energy p)) l1; e_S1t := map (fun p => Some (time_at_max_energy p)) l1;
       e_nS2 := length l2; e_S2w := map (fun p => Some (peak_width p / mus)%Q) l2; e_S2h := map (fun p => Some (height p)) l2;
       e_S2e := map (fun p => Some (total_energy p)) l2; e_S2q := map (fun p => k_Q (cl p)) l2; e_S2t := map (fun p => Some (time_at_max_energy p)) l2;
       e_qmax := Some (map (fun p => Some (maximum (charges p))) l2);
       e_Nsipm := map (fun p => k_nsipm (cl p)) l2; e_DT := map (dts l1) l2; e_Z := map (zs l1) l2; e_X := map (fun p => k_X (cl p)) l2; e_Y := map (fun p => k_Y (cl p)) l2;
       e_R := map (fun p => k_R (cl p)) l2; e_Phi := map (fun p => k_Phi (cl p)) l2; e_Xrms := map (fun p => k_Xrms (cl p)) l2; e_Yrms := map (fun p => k_Yrms (cl p)) l2; e_Zrms := map zr l2 |}.

  Lemma add_s1_built ev t l1 p : add_s1 (built ev t l1 []) p = built ev t (l1 ++ [p]) [].
  Proof. unfold add_s1, built. cbn. rewrite !map_app, app_length. reflexivity. Qed.
  Lemma add_s1s_built ev t l1 m : fold_left add_s1 m (built ev t l1 []) = built ev t (l1 ++ m) [].
  Proof. revert l1. induction m as [|p m IH]; intros l1; [now rewrite app_nil_r|]. cbn [fold_left]. rewrite add_s1_built, IH, <- app_assoc. reflexivity. Qed.
  Lemma add_s2_built ev t l1 l2 p : located p -> add_s2 sipm_xys drift_v charges rms reco (built ev t l1 l2) p = Ok (built ev t l1 (l2 ++ [p])).
  Proof.
    intros (Hq & xys & En & E1 & E2). unfold add_s2, locate, positions. rewrite E1. destruct (r_ids (p_sipms p)); [easy|]. cbn [rbind]. assert (Em : list_max (charges p) = Ok (maximum (charges p))) by (unfold list_max; destruct (charges p); [easy|reflexivity]).
    destruct (cluster_of p) as [c|] eqn:Ec.
    - destruct E2 as (more & ->). cbn [rbind compute_z_and_dt]. rewrite Em. cbn [rbind]. unfold built. rewrite !map_app, app_length. cbn.
      unfold cl, zr, zs, dts. rewrite Ec, !map_map. reflexivity.
    - rewrite E2. cbn [rbind]. rewrite Em. cbn [rbind]. unfold built. rewrite !map_app, app_length. cbn. unfold cl, zr, zs, dts. rewrite Ec. reflexivity.
  Qed.
  Lemma add_s2s_built ev t l1 l2 m : Forall located m -> add_s2s sipm_xys drift_v charges rms reco (built ev t l1 l2) m = Ok (built ev t l1 (l2 ++ m)).
  Proof. intros H. revert l2. induction H as [|p m Hp H IH]; intros l2; [cbn; now rewrite app_nil_r|]. cbn [add_s2s]. rewrite add_s2_built by assumption. cbn [rbind]. rewrite IH, <- app_assoc. reflexivity. Qed.

  Lemma overflow_min i : overflow_protection i u16max = Nat.min i u16max.
  Proof. unfold overflow_protection. destruct (Nat.ltb_spec u16max i); [rewrite Nat.min_r by lia; reflexivity|rewrite Nat.min_l by lia; reflexivity]. Qed.

  Lemma row_pair ev t l1 l2 i j p1 p2 : nth_error l1 i = Some p1 -> nth_error l2 j = Some p2 ->
    exists w, kr_row (fill_defaults (built ev t l1 l2)) i j = Ok w /\ row_of drift_v charges rms cluster_of ev t l1 l2 (Some i) j w.
  Proof.
    intros H1 H2. assert (n1 : (length l1 =? 0) = false) by (apply Nat.eqb_neq; destruct l1; [destruct i; discriminate|discriminate]).
    assert (n2 : (length l2 =? 0) = false) by (apply Nat.eqb_neq; destruct l2; [destruct j; discriminate|discriminate]).
    assert (Hdt : item (dts l1 p2) i = Ok match cluster_of p2 with Some _ => Some ((time_at_max_energy p2 - time_at_max_energy p1) * (1 / mus))%Q | None => NN end).
    { unfold dts. destruct (cluster_of p2); [now rewrite (item_map _ _ _ _ H1)|]. apply item_repeat, nth_error_Some. congruence. }
    assert (Hz : item (zs l1 p2) i = Ok match cluster_of p2 with Some _ => Some ((time_at_max_energy p2 - time_at_max_energy p1) * drift_v)%Q | None => NN end).
    { unfold zs. destruct (cluster_of p2); [now rewrite (item_map _ _ _ _ H1)|]. apply item_repeat, nth_error_Some. congruence. }
    unfold fill_defaults, kr_row. cbn [built e_event e_time e_nS1 e_S1w e_S1h e_S1e e_S1t e_nS2 e_S2w e_S2h e_S2e e_S2q e_S2t e_qmax e_Nsipm e_DT e_Z e_X e_Y e_R e_Phi e_Xrms e_Yrms e_Zrms].
    rewrite n1, n2. cbn [orb]. rewrite !(item_map _ _ _ _ H1), !(item_map _ _ _ _ H2). cbn [rbind]. rewrite Hdt, Hz. cbn [rbind].
    eexists. split; [reflexivity|]. unfold row_of, s1_part, s2_part, drift_part. cbn. repeat (split; [reflexivity|]). split.
    - exists p2. split; [assumption|]. split; [apply overflow_min|]. fold (cl p2). repeat split.
    - exists p1, p2. split; [assumption|]. split; [assumption|]. split; [split; [apply overflow_min|repeat split]|]. destruct (cluster_of p2); split; reflexivity.
  Qed.
  Lemma row_no_s1 ev t l2 j p2 : nth_error l2 j = Some p2 ->
    exists w, kr_row (fill_defaults (built ev t [] l2)) 0 j = Ok w /\ row_of drift_v charges rms cluster_of ev t [] l2 None j w.
  Proof.
    intros H2. assert (n2 : (length l2 =? 0) = false) by (apply Nat.eqb_neq; destruct l2; [destruct j; discriminate|discriminate]).
    assert (Hj : j < Nat.max (length l2) 1) by (assert (j < length l2) by (apply nth_error_Some; congruence); lia).
    unfold fill_defaults, kr_row. cbn [built e_event e_time e_nS1 e_S1w e_S1h e_S1e e_S1t e_nS2 e_S2w e_S2h e_S2e e_S2q e_S2t e_qmax e_Nsipm e_DT e_Z e_X e_Y e_R e_Phi e_Xrms e_Yrms e_Zrms].
    rewrite n2. cbn [orb length Nat.eqb]. rewrite !(item_map _ _ _ _ H2), (item_repeat _ _ j) by exact Hj. cbn [item nth_error rbind repeat Nat.max].
    eexists. split; [reflexivity|]. unfold row_of, no_s1_part, s2_part. cbn [w_event w_time w_nS1 w_nS2 w_s1_peak w_s2_peak w_S1w w_S1h w_S1e w_S1t w_DT w_Z w_S2w w_S2h w_S2e w_S2q w_S2t w_qmax w_Nsipm w_Zrms w_X w_Y w_R w_Phi w_Xrms w_Yrms]. repeat (split; [reflexivity|]). split.
    - exists p2. split; [assumption|]. split; [apply overflow_min|]. fold (cl p2). repeat split.
    - repeat split.
  Qed.
End Kr.

(** an event with some selected S2: one row for each pair of selected peaks, or for each S2 when there is no S1 *)
Theorem C52_one_row_per_pair sipm_xys drift_v charges rms reco cluster_of pm sel ev timestamp l1 l2 :
  marked (s1_peaks sel) (s1s pm) l1 -> marked (s2_peaks sel) (s2s pm) l2 -> l2 <> [] ->
  Forall (located sipm_xys charges reco cluster_of) l2 ->
  exists e rows, build_pointlike_event sipm_xys drift_v charges rms reco pm sel ev timestamp = Ok e /\ kr_store e = Ok rows /\
    Forall2 (fun '(o, j) w => row_of drift_v charges rms cluster_of ev (timestamp * (1 # 1000))%Q l1 l2 o j w) (pairs (length l1) (length l2)) rows.
Proof.
  intros M1 M2 Hn L. unfold build_pointlike_event. rewrite (marked_chosen _ _ _ M1), (marked_chosen _ _ _ M2).
  change (new_event ev (timestamp * (1 # 1000))%Q) with (built drift_v charges rms cluster_of ev (timestamp * (1 # 1000))%Q [] []). rewrite add_s1s_built, add_s2s_built by assumption. cbn [app].
  assert (n2 : (length l2 =? 0) = false) by (apply Nat.eqb_neq; destruct l2; [easy|discriminate]).
  set (e := built drift_v charges rms cluster_of ev (timestamp * (1 # 1000))%Q l1 l2). exists e. unfold kr_store. change (e_nS1 e) with (length l1). change (e_nS2 e) with (length l2). rewrite n2. unfold pairs. destruct l1 as [|q l1].
  - cbn [length Nat.eqb]. destruct (rmap_all_forall2 (fun '(i, j) => kr_row (fill_defaults e) i j) (fun ij w => row_of drift_v charges rms cluster_of ev (timestamp * (1 # 1000))%Q [] l2 None (snd ij) w) (list_prod [0] (seq 0 (length l2)))) as (rows & E & F).
    + intros [i j] H. apply in_prod_iff in H. destruct H as [[<-|[]] Hj]. apply in_seq in Hj. destruct (nth_error l2 j) as [p2|] eqn:E2; [|apply nth_error_None in E2; lia]. exact (row_no_s1 _ _ _ _ ev _ l2 j p2 E2).
    + exists rows. split; [reflexivity|]. split; [exact E|]. change [None] with (map (fun _ : nat => @None nat) [0]). rewrite list_prod_map_l. apply F2_map_l. clear -F. induction F as [|[i j] w l m H F IH]; constructor; assumption.
  - assert (n1 : (length (q :: l1) =? 0) = false) by reflexivity. rewrite n1. remember (q :: l1) as l eqn:El.
    destruct (rmap_all_forall2 (fun '(i, j) => kr_row (fill_defaults e) i j) (fun ij w => row_of drift_v charges rms cluster_of ev (timestamp * (1 # 1000))%Q l l2 (Some (fst ij)) (snd ij) w) (list_prod (seq 0 (length l)) (seq 0 (length l2)))) as (rows & E & F).
    + intros [i j] H. apply in_prod_iff in H. destruct H as [Hi Hj]. apply in_seq in Hi, Hj. destruct (nth_error l2 j) as [p2|] eqn:E2; [|apply nth_error_None in E2; lia]. destruct (nth_error l i) as [p1|] eqn:E1; [|apply nth_error_None in E1; lia]. exact (row_pair _ _ _ _ ev _ l l2 i j p1 p2 E1 E2).
    + exists rows. split; [reflexivity|]. split; [exact E|]. replace (match length l with 0 => [None] | S _ => map Some (seq 0 (length l)) end) with (map Some (seq 0 (length l))) by (rewrite El; reflexivity).
      rewrite list_prod_map_l. apply F2_map_l. clear -F. induction F as [|[i j] w l0 m H F IH]; constructor; assumption.
Qed.
Print Assumptions C52_one_row_per_pair.

(** an event without selected S2s cannot be stored *)
Theorem C52_no_s2_refuted sipm_xys drift_v charges rms reco pm sel ev timestamp l1 :
  marked (s1_peaks sel) (s1s pm) l1 -> marked (s2_peaks sel) (s2s pm) [] ->
  exists e, build_pointlike_event sipm_xys drift_v charges rms reco pm sel ev timestamp = Ok e /\ kr_store e = Err TypeError.
Proof.
  intros M1 M2. unfold build_pointlike_event. rewrite (marked_chosen _ _ _ M1), (marked_chosen _ _ _ M2).
  change (new_event ev (timestamp * (1 # 1000))%Q) with (built drift_v charges rms (fun _ => None) ev (timestamp * (1 # 1000))%Q [] []). rewrite add_s1s_built. cbn [app add_s2s]. eexists. split; [reflexivity|].
  destruct l1 as [|p l1]; unfold kr_store; cbn; reflexivity.
Qed.
Print Assumptions C52_no_s2_refuted.

(** one S1 of two and two S2s; the position of the second is not found *)
Definition ex_peak (t e : Q) (ids : list nat) (q : list (list Q)) : peak :=
  {| p_times := [t]; p_widths := [(1000 # 1)%Q]; p_pmts := {| r_ids := [0]; r_wfs := {| cols := 1; rows := [[e]] |} |}; p_sipms := {| r_ids := ids; r_wfs := {| cols := 1; rows := q |} |} |}.
Definition ex_charges (p : peak) : list Q := sum_over_times (r_wfs (p_sipms p)).
Definition ex_cluster : krcluster := {| k_nsipm := Some 1%Q; k_Q := Some 5%Q; k_X := Some 10%Q; k_Y := Some 20%Q; k_Xrms := Some 0%Q; k_Yrms := Some 0%Q; k_R := Some 22%Q; k_Phi := Some 1%Q |}.
Definition ex_reco (xys : list (Q * Q)) (qs : list Q) : result (option (list krcluster)) := match qs with [q] => if Qltb q 1 then Ok None else Ok (Some [ex_cluster]) | _ => Ok None end.
Definition ex_cluster_of (p : peak) : option krcluster := match ex_charges p with [q] => if Qltb q 1 then None else Some ex_cluster | _ => None end.
Definition ex_pm : pmap := {| s1s := [ex_peak 100 3 [] []; ex_peak 200 4 [] []]; s2s := [ex_peak 1000 50 [1]%nat [[5]]; ex_peak 3000 60 [0]%nat [[1 # 2]]] |}%Q.
Definition ex_sel : selection := {| passed := true; s1_peaks := [false; true]; s2_peaks := [true; true] |}.
Example C52_example :
  Forall (located [(0, 0); (10, 20)]%Q ex_charges ex_reco ex_cluster_of) (s2s ex_pm) /\
  exists e rows, build_pointlike_event [(0, 0); (10, 20)]%Q 1 ex_charges (fun _ => 0%Q) ex_reco ex_pm ex_sel 7 9 = Ok e /\ kr_store e = Ok rows /\
    map w_s1_peak rows = [0; 0] /\ map w_s2_peak rows = [0; 1] /\ map w_X rows = [Some 10%Q; NN] /\ map w_Z rows = [Some ((1000 - 200) * 1)%Q; NN].
Proof.
  split.
  - repeat constructor; cbn; try discriminate; [exists [(10, 20)%Q]; split; [discriminate|]; split; [reflexivity|]; exists []; reflexivity|exists [(0, 0)%Q]; split; [discriminate|]; split; reflexivity].
  - eexists _, _. split; [reflexivity|]. split; [reflexivity|]. repeat split.
Qed.
