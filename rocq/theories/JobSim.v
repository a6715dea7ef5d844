(** C118 for buffy and detsim *)
From Coq Require Import String Qround.
From Verif Require ReadModel.
From Verif Require Import Base Arrays ConfigModel TablesModel SbinModel PeaksModel BuffersModel DetsimModel S1Model DsimModel FrunModel BfyModel DetModel JobSimModel.
From Verif Require JobModel.
From Verif Require Import JobSpec JobProofs.
Local Open Scope nat_scope.

(** the tables of one job followed by those of another *)
Definition join_buffy (a b : bfy_tables) : bfy_tables :=
  {| bt_detected := bt_detected a ++ bt_detected b; bt_signal := bt_signal a ++ bt_signal b; bt_rows := bt_rows a ++ bt_rows b; bt_numbers := bt_numbers a ++ bt_numbers b;
     bt_in := bt_in a + bt_in b; bt_resp := bt_resp a + bt_resp b |}.
Definition join_detsim (a b : det_tables) : det_tables :=
  {| dt_active := dt_active a ++ dt_active b; dt_dark := dt_dark a ++ dt_dark b; dt_signal := dt_signal a ++ dt_signal b; dt_rows := dt_rows a ++ dt_rows b; dt_numbers := dt_numbers a ++ dt_numbers b;
     dt_in := dt_in a + dt_in b |}.
(** the same, when a job of buffy may end before it creates its file *)
Definition join_buffy_files (a b : option bfy_tables) : option bfy_tables := match a, b with Some a, Some b => Some (join_buffy a b) | _, _ => None end.

Section Buffy.
  Variables (pmt_db sipm_db : list nat) (c : bcfg) (rate : Q).
  Let run (draw : nat -> Q) := buffy_all pmt_db sipm_db c rate draw.
  Lemma bfy_app draw a : forall b o, run draw (a ++ b) o = rbind (run draw a o) (run draw b).
  Proof.
    unfold run. induction a as [|[ev [p s]] a IH]; intros b o; [reflexivity|]. cbn [app buffy_all].
    destruct (_ || _); [apply IH|]. destruct (rmap to_simrow p); [|reflexivity]. cbn [rbind]. destruct (rmap to_simrow s); [|reflexivity]. cbn [rbind].
    destruct (buffy_event _ _ _ _); [|reflexivity]. cbn [rbind]. destruct (rmap _ _); [|reflexivity]. cbn [rbind]. apply IH.
  Qed.
  Lemma bfy_join items : forall draw o o1, run draw items (join_buffy o o1) = rbind (run (fun i => draw (bt_in o + i)) items o1) (fun o2 => Ok (join_buffy o o2)).
  Proof.
    unfold run. induction items as [|[ev [p s]] items IH]; intros draw o o1; [reflexivity|]. cbn [buffy_all].
    destruct (_ || _).
    - rewrite <- IH. f_equal. unfold join_buffy. cbn. rewrite !ab, <- !plus_n_Sm. reflexivity.
    - destruct (rmap to_simrow p); [|reflexivity]. cbn [rbind]. destruct (rmap to_simrow s); [|reflexivity]. cbn [rbind].
      change (bt_in (join_buffy o o1)) with (bt_in o + bt_in o1).
      destruct (buffy_event _ _ _ _) as [out|]; [|reflexivity]. cbn [rbind]. destruct (rmap _ _); [|reflexivity]. cbn [rbind]. cbv zeta.
      rewrite <- IH. f_equal. unfold join_buffy. cbn. rewrite !ab, <- !plus_n_Sm. reflexivity.
  Qed.
  Lemma bfy_empty o : join_buffy o nothing_read = o.
  Proof. destruct o; unfold join_buffy, nothing_read. cbn. rewrite !app_nil_r, !add0. reflexivity. Qed.
  Definition bfy_jobs := jobs run join_buffy nothing_read (fun o draw => fun i => draw (bt_in o + i)) bfy_app bfy_join bfy_empty.
End Buffy.

Lemma safe_app float unit a b x : pmt_and_sipm_bin_width_safe float unit a = Ok x -> pmt_and_sipm_bin_width_safe float unit (a ++ b) = Ok x.
Proof.
  induction a as [|f a IH]; [discriminate|]. cbn [app pmt_and_sipm_bin_width_safe]. destruct (widths_of_file _ _ f) as [w|e]; [intros H; exact H|].
  destruct e; try discriminate. do 37 (destruct n as [|n]; try discriminate). exact IH.
Qed.

(** the two jobs of buffy have the same sampling periods *)
Local Notation periods float unit files := (pmt_and_sipm_bin_width_safe float unit (map (fun f => option_map (pair false) (nf_conf f)) files)).
Lemma job_some {A} (run : (nat -> Q) -> list A -> bfy_tables -> result bfy_tables) draw (g : ReadModel.generated A) :
  (let (items, e) := g in rbind (run draw items nothing_read) (fun o => match e with None => Ok (Some o) | Some e => Err e end)) =
  rbind (job run nothing_read draw g) (fun o => Ok (Some o)).
Proof. destruct g as [items e]. unfold job. destruct (run draw items nothing_read); [|reflexivity]. cbn [rbind]. destruct e; reflexivity. Qed.
Lemma some_jobs {A} (x : result A) (y : A -> result A) (join : A -> A -> A) (joins : option A -> option A -> option A) (z : option A -> result (option A)) :
  (forall a b, joins (Some a) (Some b) = Some (join a b)) -> (forall a, z (Some a) = rbind (y a) (fun o => Ok (Some o))) ->
  rbind (then_job join x y) (fun o => Ok (Some o)) = then_job joins (rbind x (fun o => Ok (Some o))) z.
Proof. intros H1 H2. destruct x as [a|]; [|reflexivity]. cbn. rewrite H2. destruct (y a); [|reflexivity]. cbn. rewrite H1. reflexivity. Qed.
Definition seen (o : option bfy_tables) : nat := match o with Some o => bt_in o | None => 0 end.

Theorem C118_buffy_files : forall float unit is_pmt_name pmt_db sipm_db mus b rate draw files1 files2 pw sw,
  periods float unit files1 = Ok (pw, sw) -> periods float unit files2 = Ok (pw, sw) ->
  buffy_run float unit is_pmt_name pmt_db sipm_db mus b rate draw (files1 ++ files2) =
  then_job join_buffy_files (buffy_run float unit is_pmt_name pmt_db sipm_db mus b rate draw files1)
    (fun o => buffy_run float unit is_pmt_name pmt_db sipm_db mus b rate (fun i => draw (seen o + i)) files2).
Proof.
  intros float unit is_pmt_name pmt_db sipm_db mus b rate draw files1 files2 pw sw H1 H2. unfold buffy_run. destruct (check_max_time _ _ _) as [mt|]; [|reflexivity]. cbn [rbind].
  rewrite H1, map_app, (safe_app _ _ _ _ _ H1), H2. rewrite over_app. rewrite !(job_some (fun d => buffy_all pmt_db sipm_db (readout b mt pw sw) rate d)).
  rewrite (bfy_jobs pmt_db sipm_db (readout b mt pw sw) rate draw). apply some_jobs; [reflexivity|]. intros a. cbn [seen].
  apply (job_some (fun d => buffy_all pmt_db sipm_db (readout b mt pw sw) rate d)).
Qed.
Print Assumptions C118_buffy_files.
Theorem C118_buffy_range : forall float unit is_pmt_name pmt_db sipm_db mus b rate draw a k c0 files, a <= k -> match c0 with None => True | Some c' => k < c' end ->
  buffy_range float unit is_pmt_name pmt_db sipm_db (a, c0) mus b rate draw files =
  then_job join_buffy_files (buffy_range float unit is_pmt_name pmt_db sipm_db (a, Some k) mus b rate draw files)
    (fun o => buffy_range float unit is_pmt_name pmt_db sipm_db (k, c0) mus b rate (fun i => draw (seen o + i)) files).
Proof.
  intros float unit is_pmt_name pmt_db sipm_db mus b rate draw a k c0 files H1 H2. unfold buffy_range. destruct (check_max_time _ _ _) as [mt|]; [|reflexivity]. cbn [rbind].
  destruct (periods float unit files) as [[pw sw]|e]; [|destruct e; try reflexivity; do 37 (destruct n as [|n]; try reflexivity)].
  rewrite (ranged_app _ a k c0 H1 H2). rewrite !(job_some (fun d => buffy_all pmt_db sipm_db (readout b mt pw sw) rate d)).
  rewrite (bfy_jobs pmt_db sipm_db (readout b mt pw sw) rate draw). apply some_jobs; [reflexivity|]. intros o. cbn [seen].
  apply (job_some (fun d => buffy_all pmt_db sipm_db (readout b mt pw sw) rate d)).
Qed.
Print Assumptions C118_buffy_range.
Theorem C118_buffy_whole : forall float unit is_pmt_name pmt_db sipm_db mus b rate draw files,
  buffy_range float unit is_pmt_name pmt_db sipm_db (0, None) mus b rate draw files = buffy_run float unit is_pmt_name pmt_db sipm_db mus b rate draw files.
Proof. intros. unfold buffy_range, buffy_run. destruct (check_max_time _ _ _); [|reflexivity]. cbn [rbind]. rewrite ranged_all. reflexivity. Qed.
Print Assumptions C118_buffy_whole.

Section Detsim.
  Variables (sqrtQ emitted : Q -> Q) (s1_lt : list Q -> list Q -> list Q -> result (list (list Q))) (s1_sensors : nat) (p : physics) (lt_pmt lt_sipm : light_table) (ACTIVE BUFFER : nat).
  Variables (pmt_db sipm_db : list nat) (c : bcfg).
  Let run (rn : nat -> det_draws) := detsim_all sqrtQ emitted s1_lt s1_sensors p lt_pmt lt_sipm ACTIVE BUFFER pmt_db sipm_db rn c.
  Lemma det_app rn a : forall b o, run rn (a ++ b) o = rbind (run rn a o) (run rn b).
  Proof.
    unfold run. induction a as [|e a IH]; intros b o; [reflexivity|]. cbn [app detsim_all].
    destruct (simulate_event _ _ _ _ _ _ _ _ _ _ _ _) as [out|]; [|reflexivity]. cbn [rbind]. destruct out; try apply IH. destruct (rmap _ _); [|reflexivity]. cbn [rbind]. apply IH.
  Qed.
  Lemma det_join items : forall rn o o1, run rn items (join_detsim o o1) = rbind (run (fun i => rn (dt_in o + i)) items o1) (fun o2 => Ok (join_detsim o o2)).
  Proof.
    unfold run. induction items as [|e items IH]; intros rn o o1; [reflexivity|]. cbn [detsim_all]. change (dt_in (join_detsim o o1)) with (dt_in o + dt_in o1).
    destruct (simulate_event _ _ _ _ _ _ _ _ _ _ _ _) as [out|]; [|reflexivity]. cbn [rbind]. destruct out.
    - rewrite <- IH. f_equal. unfold join_detsim. cbn. rewrite !ab, <- !plus_n_Sm. reflexivity.
    - rewrite <- IH. f_equal. unfold join_detsim. cbn. rewrite !ab, <- !plus_n_Sm. reflexivity.
    - destruct (rmap _ _); [|reflexivity]. cbn [rbind]. cbv zeta. rewrite <- IH. f_equal. unfold join_detsim. cbn. rewrite !ab, <- !plus_n_Sm. reflexivity.
  Qed.
  Lemma det_empty o : join_detsim o nothing_simulated = o.
  Proof. destruct o; unfold join_detsim, nothing_simulated. cbn. rewrite !app_nil_r, !add0. reflexivity. Qed.
  Definition det_jobs := jobs run join_detsim nothing_simulated (fun o rn => fun i => rn (dt_in o + i)) det_app det_join det_empty.
  Lemma det_count rn items : forall o o2, run rn items o = Ok o2 -> dt_in o2 = dt_in o + List.length items.
  Proof.
    unfold run. induction items as [|e items IH]; intros o o2 H; [injection H as <-; cbn; lia|]. cbn [detsim_all] in H.
    destruct (simulate_event _ _ _ _ _ _ _ _ _ _ _ _) as [out|]; [|discriminate]. cbn [rbind] in H. destruct out.
    - apply IH in H. cbn in *. lia.
    - apply IH in H. cbn in *. lia.
    - destruct (rmap _ _); [|discriminate]. cbn [rbind] in H. cbv zeta in H. apply IH in H. cbn in *. lia.
  Qed.
End Detsim.

Lemma mapi_from_app {A B} (f : nat -> A -> B) a : forall n b, mapi_from n f (a ++ b) = mapi_from n f a ++ mapi_from (n + List.length a) f b.
Proof. induction a as [|x a IH]; intros n b; cbn [app mapi_from List.length]; [rewrite Nat.add_0_r; reflexivity|]. rewrite IH. f_equal. f_equal. f_equal. lia. Qed.
Lemma mapi_from_shift {A B} (f g : nat -> A -> B) k : (forall i x, f (k + i) x = g i x) -> forall l n, mapi_from (k + n) f l = mapi_from n g l.
Proof. intros H l. induction l as [|x l IH]; intros n; [reflexivity|]. cbn [mapi_from]. rewrite H. f_equal. rewrite <- IH. f_equal. lia. Qed.
Lemma mapi_from_len {A B} (f : nat -> A -> B) l : forall n, List.length (mapi_from n f l) = List.length l.
Proof. induction l; intros n; cbn; [reflexivity|]. rewrite IHl. reflexivity. Qed.
Lemma det_items_app rate draw f1 f2 : det_items rate draw (f1 ++ f2) = det_items rate draw f1 ++ det_items rate (fun i => draw (List.length (det_items rate draw f1) + i)) f2.
Proof.
  unfold det_items. rewrite flat_map_app. unfold mapi. rewrite mapi_from_app. f_equal. rewrite mapi_from_len.
  match goal with |- mapi_from (0 + ?k) _ _ = _ => change (0 + k) with k; rewrite <- (Nat.add_0_r k) at 1; apply mapi_from_shift end.
  intros i [names [ev hits]]. reflexivity.
Qed.

Theorem C118_detsim_files : forall sqrtQ emitted s1_lt s1_sensors p lt_pmt lt_sipm ACTIVE BUFFER pmt_db sipm_db rn mus b pw sw rate draw files1 files2,
  detsim_run sqrtQ emitted s1_lt s1_sensors p lt_pmt lt_sipm ACTIVE BUFFER pmt_db sipm_db rn mus b pw sw rate draw (files1 ++ files2) =
  then_job join_detsim (detsim_run sqrtQ emitted s1_lt s1_sensors p lt_pmt lt_sipm ACTIVE BUFFER pmt_db sipm_db rn mus b pw sw rate draw files1)
    (fun o => detsim_run sqrtQ emitted s1_lt s1_sensors p lt_pmt lt_sipm ACTIVE BUFFER pmt_db sipm_db (fun i => rn (dt_in o + i)) mus b pw sw rate (fun i => draw (dt_in o + i)) files2).
Proof.
  intros. unfold detsim_run. destruct (check_max_time _ _ _) as [mt|]; [|reflexivity]. cbn [rbind]. rewrite det_items_app, det_app.
  unfold then_job. destruct (detsim_all _ _ _ _ _ _ _ _ _ _ _ rn _ (det_items rate draw files1) _) as [o|x] eqn:E; [|reflexivity]. cbn [rbind].
  apply det_count in E. cbn [dt_in nothing_simulated] in E. change (0 + ?k) with k in E. rewrite <- E.
  rewrite <- (det_empty o) at 1. rewrite det_join. destruct (detsim_all _ _ _ _ _ _ _ _ _ _ _ _ _ _ _); reflexivity.
Qed.
Print Assumptions C118_detsim_files.
Theorem C118_detsim_range : forall sqrtQ emitted s1_lt s1_sensors p lt_pmt lt_sipm ACTIVE BUFFER pmt_db sipm_db rn mus b pw sw rate draw a k c0 files, a <= k -> match c0 with None => True | Some c' => k < c' end ->
  detsim_range sqrtQ emitted s1_lt s1_sensors p lt_pmt lt_sipm ACTIVE BUFFER pmt_db sipm_db rn (a, c0) mus b pw sw rate draw files =
  then_job join_detsim (detsim_range sqrtQ emitted s1_lt s1_sensors p lt_pmt lt_sipm ACTIVE BUFFER pmt_db sipm_db rn (a, Some k) mus b pw sw rate draw files)
    (fun o => detsim_range sqrtQ emitted s1_lt s1_sensors p lt_pmt lt_sipm ACTIVE BUFFER pmt_db sipm_db (fun i => rn (dt_in o + i)) (k, c0) mus b pw sw rate draw files).
Proof.
  intros until files. intros H1 H2. unfold detsim_range. destruct (check_max_time _ _ _) as [mt|]; [|reflexivity]. cbn [rbind]. rewrite (ranged_app _ a k c0 H1 H2).
  exact (det_jobs sqrtQ emitted s1_lt s1_sensors p lt_pmt lt_sipm ACTIVE BUFFER pmt_db sipm_db (readout b mt pw sw) rn _ _).
Qed.
Print Assumptions C118_detsim_range.
Theorem C118_detsim_whole : forall sqrtQ emitted s1_lt s1_sensors p lt_pmt lt_sipm ACTIVE BUFFER pmt_db sipm_db rn mus b pw sw rate draw files,
  detsim_range sqrtQ emitted s1_lt s1_sensors p lt_pmt lt_sipm ACTIVE BUFFER pmt_db sipm_db rn (0, None) mus b pw sw rate draw files =
  detsim_run sqrtQ emitted s1_lt s1_sensors p lt_pmt lt_sipm ACTIVE BUFFER pmt_db sipm_db rn mus b pw sw rate draw files.
Proof. intros. unfold detsim_range, detsim_run. destruct (check_max_time _ _ _); [|reflexivity]. cbn [rbind]. rewrite ranged_all. destruct (detsim_all _ _ _ _ _ _ _ _ _ _ _ _ _ _ _); reflexivity. Qed.
Print Assumptions C118_detsim_whole.
