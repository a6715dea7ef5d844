(** C121: what a run that is stopped between two writes leaves in its file, for the cities that read waveforms *)
From Coq Require Import String.
From Verif Require Import Base ConfigModel TablesModel PeaksModel BuffersModel.
From Verif Require ReadModel.
From Verif Require Import PmapioModel CalibModel IreneModel NoiseModel HypaModel FeeModel TrigModel DioModel PreadModel FrunModel HrunModel IsiModel JobModel.
From Verif Require Import JobProofs.
From Verif Require Import HaltBase HaltWfModel HaltSpec HaltWfSpec HaltProofs HaltStop HaltStop2 HaltWf.
Local Open Scope nat_scope.

Lemma in_within {T U A} (get : U -> T) (set : T -> U -> U) : (forall t u, get (set t u) = t) -> (forall t t' u, set t (set t' u) = set t u) -> (forall u, set (get u) u = u) ->
  forall (p : prog T A) o u, In u (visited (within get set p) o) -> exists t, In t (visited p (get o)) /\ u = set t o.
Proof.
  intros H1 H2 H3. induction p as [a|e|f p IH|k IH]; intros o u; cbn [within visited].
  - intros [<-|[]]. exists (get o). split; [now left|now rewrite H3].
  - intros [<-|[]]. exists (get o). split; [now left|now rewrite H3].
  - intros [<-|H]; [exists (get o); split; [now left|now rewrite H3]|]. destruct (IH _ _ H) as (t & H4 & ->). rewrite H1 in H4. exists t. split; [now right|now rewrite H2].
  - intros H. apply (IH _ o u H).
Qed.

(** ---- the writer of PMaps ---- *)
Section Pm.
  Variable f32 : Q -> Q.
  Definition keeps (ev : Z) (p : prog pm_tables unit) : Prop := forall t u, In u (visited p t) -> pm_grown ev t u.
  Lemma keeps_bind ev p q : keeps ev p -> keeps ev (q tt) -> keeps ev (bind p q).
  Proof.
    intros P R t u H. apply (part (pm_grown ev t)) in H; [|apply P]. destruct H as [H|(t1 & [] & H1 & _ & H)]; [exact H|]. eapply pm_trans; [exact H1|apply R; exact H].
  Qed.
  Lemma keeps_each {A R} ev (f : A -> result R) add l : (forall a r t, f a = Ok r -> pm_grown ev t (add r t)) -> keeps ev (each l (fun a => r <- call (f a) ;; put (add r))).
  Proof. intros H t u. apply in_each; [apply pm_same|]. intros a r t0 u0 E K. eapply pm_trans; [apply (H _ _ _ E)|exact K]. Qed.
  Lemma pmap_keeps ev pm : keeps ev (write_pmap f32 ev pm).
  Proof.
    assert (S1 : forall p n i r t, one_sum f32 p n ev i = Ok r -> pm_grown ev t (tables_add [r] [] [] [] [] t)) by (intros; apply pm_rows; try (apply in_none); apply in_one; eapply one_sum_event; eassumption).
    assert (S2 : forall p n i r t, one_sum f32 p n ev i = Ok r -> pm_grown ev t (tables_add [] [r] [] [] [] t)) by (intros; apply pm_rows; try (apply in_none); apply in_one; eapply one_sum_event; eassumption).
    assert (S3 : forall p n i r t, one_sensor f32 p n ev i = Ok r -> pm_grown ev t (tables_add [] [] r [] [] t)) by (intros; apply pm_rows; try (apply in_none); eapply one_sensor_event; eassumption).
    assert (S4 : forall p n i r t, one_sensor f32 p n ev i = Ok r -> pm_grown ev t (tables_add [] [] [] r [] t)) by (intros; apply pm_rows; try (apply in_none); eapply one_sensor_event; eassumption).
    assert (S5 : forall p n i r t, one_sensor f32 p n ev i = Ok r -> pm_grown ev t (tables_add [] [] [] [] r t)) by (intros; apply pm_rows; try (apply in_none); eapply one_sensor_event; eassumption).
    assert (N : keeps ev (ret tt)) by (intros t u H; apply in_ret in H; subst; apply pm_same).
    assert (A : forall l n, keeps ev (write_s1s f32 l n ev)).
    { induction l as [|p l IH]; intros n; cbn [write_s1s]; [exact N|].
      apply keeps_bind; [apply keeps_each; intros; eapply S1; eassumption|]. apply keeps_bind; [apply keeps_each; intros; eapply S4; eassumption|]. apply IH. }
    assert (B : forall l n, keeps ev (write_s2s f32 l n ev)).
    { induction l as [|p l IH]; intros n; cbn [write_s2s]; [exact N|].
      apply keeps_bind; [apply keeps_each; intros; eapply S2; eassumption|]. apply keeps_bind; [apply keeps_each; intros; eapply S5; eassumption|].
      apply keeps_bind; [apply keeps_each; intros; eapply S3; eassumption|]. apply IH. }
    unfold write_pmap. apply keeps_bind; [apply A|apply B].
  Qed.
End Pm.

(** ---- irene and hypathia ---- *)
Section Ire.
  Context {W L X : Type}.
  Variables (f32 : Q -> Q) (first : nat -> W -> L -> result (option X)) (second : X -> result (list peak * list peak)) (n_sensors : nat).
  Let step := pmaps_step f32 first second n_sensors.
  (** the event is not in Run *)
  Definition ire_inv (w : waveforms (Z * Q) W L Z (list Z)) (o t : irene_tables) : Prop :=
    grown fst (fst (w_event w)) (it_indices o) (it_indices t) /\ grown fst (fst (w_event w)) (it_peaks o) (it_peaks t) /\ pm_grown (fst (w_event w)) (it_pmaps o) (it_pmaps t) /\
    it_events t = it_events o /\ it_runs t = it_runs o /\ it_trigger t = it_trigger o.
  Lemma ire_not_listed w o t : ire_inv w o t -> ire_more n_sensors w o t.
  Proof. intros (A & B & C & D & E & F). split; [exact A|]. split; [exact B|]. split; [exact C|]. now left. Qed.
  Lemma ire_put w o t a b n i u : ire_inv w o t -> (forall r, In r a -> fst r = fst (w_event w)) -> (forall r, In r b -> fst r = fst (w_event w)) -> ire_inv w o (ire_add a b [] [] [] [] n i u t).
  Proof.
    intros (A & B & C & D & E & F) F1 F2. unfold ire_add, ire_inv. j_end. split; [apply grown_add; assumption|]. split; [apply grown_add; assumption|]. split; [exact C|].
    rewrite !app_nil_r. split; [exact D|]. split; [exact E|]. rewrite <- F. destruct (it_trigger t). reflexivity.
  Qed.
  Lemma ire_visits w o t : In t (visited (step w) ((fun o => o) o)) -> ire_more n_sensors w ((fun o => o) o) t \/ exists t', step w ((fun o => o) o) = (t', Ok tt) /\ ire_same t' t.
  Proof.
    assert (R : ire_inv w o o) by (split; [apply grown_same|split; [apply grown_same|split; [apply pm_same|auto]]]).
    assert (Done : forall t, ire_inv w o t -> forall Q : Prop, ire_more n_sensors w o t \/ Q) by (intros u U; left; apply ire_not_listed; exact U).
    unfold step, pmaps_step. cbv beta. rewrite bind_look. intros H. cbn [bind look visited] in H. change (In t (visited (bind (put (ire_add [] [] [] [] [] [] [] 1 0)) (fun _ =>
      x <- call (first (it_in o) (w_pmt w) (w_sipm w));;
      match x with
      | Some x0 => put (ire_add [(fst (w_event w), true)] [] [] [] [] [] [] 0 0);;; pm <- call (second x0);; put (ire_add [] [(fst (w_event w), nonempty_pmap pm)] [] [] [] [] [] 0 0);;;
          (if nonempty_pmap pm then on_pmaps (write_pmap f32 (fst (w_event w)) {| s1s := fst pm; s2s := snd pm |});;; put (ire_add [] [] [] [] [] [] [fst (w_event w)] 0 1);;;
             put (ire_add [] [] [w_run w] [w_event w] [] [] [] 0 0);;; write_trigger n_sensors (w_trg w) (w_chn w) else ret tt)
      | None => put (ire_add [(fst (w_event w), false)] [] [] [] [] [] [] 0 0)
      end)) o)) in H.
    rewrite bind_put. apply in_put in H. destruct H as [->|H]; [now apply Done|]. match type of H with In _ (visited _ ?u) => set (t1 := u) in *; assert (M : ire_inv w o t1) by (apply ire_put; [exact R|rows_ok ..]) end. clearbody t1. clear R.
    rewrite bind_call. apply in_call in H. destruct (first _ _ _) as [[x|]|]; [| |subst; now apply Done].
    2:{ apply in_put1 in H. destruct H as [->| ->]; [now apply Done|]. apply Done. apply ire_put; [exact M|rows_ok ..]. }
    rewrite bind_put. apply in_put in H. destruct H as [->|H]; [now apply Done|]. match type of H with In _ (visited _ ?u) => set (t2 := u) in *; assert (M2 : ire_inv w o t2) by (apply ire_put; [exact M|rows_ok ..]) end. clearbody t2. clear M t1.
    rewrite bind_call. apply in_call in H. destruct (second x) as [pm|]; [|subst; now apply Done].
    rewrite bind_put. apply in_put in H. destruct H as [->|H]; [now apply Done|]. match type of H with In _ (visited _ ?u) => set (t1 := u) in *; assert (M : ire_inv w o t1) by (apply ire_put; [exact M2|rows_ok ..]) end. clearbody t1. clear M2 t2.
    destruct (nonempty_pmap pm); [|apply in_ret in H; subst; now apply Done]. rewrite exec_bind. apply (part (ire_inv w o)) in H.
    2:{ intros u V. unfold on_pmaps in V. apply in_within in V; [|reflexivity|reflexivity|intros []; reflexivity]. destruct V as (p & V & ->). apply pmap_keeps in V. destruct M as (A & B & C & D).
        split; [exact A|]. split; [exact B|]. split; [eapply pm_trans; [exact C|exact V]|exact D]. }
    destruct H as [H|(t2 & [] & M2 & E & H)]; [now apply Done|]. rewrite E. clear E M t1. rewrite !bind_put.
    apply in_put in H. destruct H as [->|H]; [now apply Done|]. match type of H with In _ (visited _ ?u) => set (t1 := u) in *; assert (M : ire_inv w o t1) by (apply ire_put; [exact M2|rows_ok ..]) end. clearbody t1. clear M2 t2.
    apply in_put in H. destruct H as [->|H]; [now apply Done|]. unfold write_trigger in *. rewrite bind_put. destruct M as (A & B & C & D & E & F).
    destruct (w_chn w) as [l|] eqn:Ch.
    - destruct (Nat.eqb_spec (List.length l) n_sensors) as [|Hl].
      + right. eexists. split; [reflexivity|]. apply in_put in H. destruct H as [->|H].
        * unfold ire_add, ire_same. j_end. rewrite !app_nil_r. repeat (split; [reflexivity|]). split; eexists; reflexivity.
        * apply in_put1 in H. destruct H as [->| ->]; unfold ire_add, ire_same; j_end; rewrite !app_nil_r; repeat (split; [reflexivity|]); split; eexists; try reflexivity; symmetry; apply app_nil_r.
      + left. assert (G : exists l, w_chn w = Some l /\ List.length l <> n_sensors) by eauto. apply in_put in H. destruct H as [->|H].
        * unfold ire_add, ire_more. j_end. rewrite !app_nil_r. split; [exact A|]. split; [exact B|]. split; [exact C|]. right. rewrite D, E, F. split; [reflexivity|]. split; [reflexivity|]. split; [reflexivity|exact G].
        * destruct H as [<-|[]]. unfold ire_add, ire_more. j_end. rewrite !app_nil_r. split; [exact A|]. split; [exact B|]. split; [exact C|]. right. rewrite D, E, F. split; [reflexivity|]. split; [reflexivity|]. split; [reflexivity|exact G].
    - right. eexists. split; [reflexivity|]. apply in_put in H. destruct H as [->|H].
      + unfold ire_add, ire_same. j_end. rewrite !app_nil_r. repeat (split; [reflexivity|]). split; eexists; try reflexivity; symmetry; apply app_nil_r.
      + apply in_ret in H. subst. unfold ire_add, ire_same. j_end. rewrite !app_nil_r. repeat (split; [reflexivity|]). split; exists []; symmetry; apply app_nil_r.
  Qed.
End Ire.
Lemma C121_pmaps_stopped : forall {W L X} f32 (first : nat -> W -> L -> result (option X)) second n_sensors open_file paths,
  forall t, In t (stopped (pmaps_step f32 first second n_sensors) (wf_from_files open_file paths) nothing_found) ->
    stopped_by (wf_from_files open_file paths) (first_events (fun o => o) nothing_found (fun k => pmaps_range f32 (both first second) n_sensors (0, Some k) open_file paths)) (ire_more n_sensors) ire_same t.
Proof.
  intros W L X f32 first second n_sensors open_file paths.
  apply (city_stops (pmaps_all f32 (both first second) n_sensors) (fun o => o) (pmaps_step f32 first second n_sensors) (pm_app f32 n_sensors (both first second)) (fun _ => eq_refl) (ire_one f32 first second n_sensors)
    (wf_from_files open_file paths) nothing_found (ire_more n_sensors) ire_same (ire_visits f32 first second n_sensors)).
  intros k. apply whole_eq.
Qed.
Lemma stopped_imp {I T} (source : list I * option pyexc) (R R' : nat -> T -> Prop) more same t : (forall k t, R k t -> R' k t) -> stopped_by source R more same t -> stopped_by source R' more same t.
Proof.
  intros H (k & t1 & F & G). exists k, t1. split; [apply H; exact F|]. destruct G as [G|(it & N & G)]; [now left|]. right. exists it. split; [exact N|]. destruct G as [G|(t2 & G1 & G2)]; [now left|]. right. exists t2. auto.
Qed.
Theorem C121_irene_stopped : forall butter sqrt f32 pmts sipms p ns nss n_sensors open_file paths,
  forall t, In t (stopped (pmaps_step f32 (fun _ => irene_first butter sqrt pmts sipms p ns) (irene_second pmts sipms p ns nss) n_sensors) (wf_from_files open_file paths) nothing_found) ->
    stopped_by (wf_from_files open_file paths) (first_events (fun o => o) nothing_found (fun k => irene_range f32 (irene_step butter sqrt pmts sipms p ns nss) n_sensors (0, Some k) open_file paths)) (ire_more n_sensors) ire_same t.
Proof.
  intros butter sqrt f32 pmts sipms p ns nss n_sensors open_file paths t H. apply C121_pmaps_stopped in H. eapply stopped_imp; [|exact H]. apply first_ext. intros k. symmetry. unfold irene_range. apply pmaps_range_ext. intros i w l. apply irene_parts.
Qed.
Print Assumptions C121_irene_stopped.
Theorem C121_hypathia_stopped : forall f32 rn pmts sipms p wl nss open_file paths,
  forall t, In t (stopped (pmaps_step f32 (hyp_first rn pmts sipms p wl) (hypathia_second pmts sipms p nss) (List.length pmts)) (wf_from_files open_file paths) nothing_found) ->
    stopped_by (wf_from_files open_file paths) (first_events (fun o => o) nothing_found (fun k => hypathia_range f32 rn pmts sipms p wl nss (0, Some k) open_file paths)) (ire_more (List.length pmts)) ire_same t.
Proof.
  intros f32 rn pmts sipms p wl nss open_file paths t H. apply C121_pmaps_stopped in H. eapply stopped_imp; [|exact H]. apply first_ext. intros k. symmetry. unfold hypathia_range. apply pmaps_range_ext. intros i w l. apply hypathia_parts.
Qed.
Print Assumptions C121_hypathia_stopped.

(** ---- diomira ---- *)
Lemma more_same {A} (l : list A) : one_more l l. Proof. exists []. split; [now rewrite app_nil_r|cbn; lia]. Qed.
Lemma more_one {A} (l : list A) a : one_more l (l ++ [a]). Proof. exists [a]. split; [reflexivity|cbn; lia]. Qed.
Section Dio.
  Variables (butter : Q -> Q * Q * Q) (sqrt : Q -> Q) (el : electronics).
  Variables (draw_pmt draw_sipm : nat -> nat -> nat -> Q -> Q) (noise : nat -> nat -> pmt_noise) (dark : nat -> list (list Q)).
  Variables (db : list dio_row) (sipms : list sim_row) (noise_cut : Q) (padding : nat) (t : option (bool * trig_conf)) (npmt ns nsipm nss : nat).
  Let step := diomira_step butter sqrt el draw_pmt draw_sipm noise dark db sipms noise_cut padding t npmt ns nsipm nss.
  Lemma dio_visits w o u : In u (visited (step w) ((fun o => o) o)) -> dio_more w ((fun o => o) o) u \/ exists t', step w ((fun o => o) o) = (t', Ok tt) /\ dio_same t' u.
  Proof.
    assert (N : forall (l : list (Z * bool)) b, grown fst (fst (w_event w)) l (l ++ [(fst (w_event w), b)])) by (intros l b; apply grown_rows; intros r [<-|[]]; reflexivity).
    assert (Dn : forall f rwf blr sipm ns' i p, (f = [] \/ exists b, f = [(fst (w_event w), b)]) -> List.length rwf <= 1 -> List.length blr <= 1 -> List.length sipm <= 1 -> dio_more w o (dio_add f [] [] rwf blr sipm ns' i p o)).
    { intros f rwf blr sipm ns' i p Hf H1 H2 H3. unfold dio_add, dio_more. j_end. rewrite !app_nil_r. split; [reflexivity|]. split; [reflexivity|]. split; [destruct Hf as [->|(b & ->)]; [rewrite app_nil_r; apply grown_same|apply N]|].
      split; [exists rwf; auto|]. split; [exists blr; auto|exists sipm; auto]. }
    assert (D0 : dio_more w o o) by (split; [reflexivity|]; split; [reflexivity|]; split; [apply grown_same|]; split; [apply more_same|]; split; apply more_same).
    unfold step, diomira_step. cbv beta. rewrite bind_look. intros H. unfold look in H. cbn [bind] in H. change (visited (Look ?k) o) with (visited (k o) o) in H. cbv beta in H.
    rewrite bind_put. apply in_put in H. destruct H as [->|H]; [now left|].
    rewrite bind_call. apply in_call in H. destruct (simulate_pmts _ _ _ _ _) as [[rwf blr]|]; [|subst; left; apply Dn; cbn; auto].
    rewrite bind_call. apply in_call in H. destruct (trigger_decision _ _ _ _ _) as [pass|]; [|subst; left; apply Dn; cbn; auto].
    rewrite bind_put. apply in_put in H. destruct H as [->|H]; [left; apply Dn; cbn; auto|]. rewrite dio_comp in *. cbn [app Nat.add] in *. destruct pass; [|apply in_ret in H; subst; left; apply Dn; cbn; eauto].
    rewrite bind_call. apply in_call in H. destruct (simulate_sipms _ _ _ _ _ _) as [sipm|]; [|subst; left; apply Dn; cbn; eauto].
    rewrite bind_put. apply in_put in H. destruct H as [->|H]; [left; apply Dn; cbn; eauto|]. rewrite dio_comp in *. cbn [app Nat.add] in *.
    destruct (fits_table npmt (ns / 25) rwf); [|destruct H as [<-|[]]; left; apply Dn; cbn; eauto].
    rewrite bind_put. apply in_put in H. destruct H as [->|H]; [left; apply Dn; cbn; eauto|]. rewrite dio_comp in *. cbn [app Nat.add] in *.
    destruct (fits_table npmt (ns / 25) blr); [|destruct H as [<-|[]]; left; apply Dn; cbn; eauto].
    rewrite bind_put. apply in_put in H. destruct H as [->|H]; [left; apply Dn; cbn; eauto|]. rewrite dio_comp in *. cbn [app Nat.add] in *.
    destruct (fits_table nsipm nss sipm); [|destruct H as [<-|[]]; left; apply Dn; cbn; eauto].
    rewrite bind_bind, bind_call. destruct (rmap _ sipm) as [z|]; [|destruct H as [<-|[]]; left; apply Dn; cbn; eauto]. cbn [call bind] in H.
    rewrite bind_put. apply in_put in H. destruct H as [->|H]; [left; apply Dn; cbn; eauto|]. rewrite dio_comp in *. cbn [app Nat.add] in *.
    apply in_put1 in H. destruct H as [->| ->]; [left; apply Dn; cbn; eauto|]. right. eexists. split; [reflexivity|]. repeat split.
  Qed.
End Dio.
Theorem C121_diomira_stopped : forall butter sqrt el draw_pmt draw_sipm noise dark db sipms noise_cut padding t npmt ns nsipm nss open_file paths,
  let event i pmtrd sipmrd := diomira_event butter sqrt el (draw_pmt i) (draw_sipm i) (noise i) db sipms noise_cut padding t npmt ns nsipm nss pmtrd sipmrd (dark i) in
  forall u, In u (stopped (diomira_step butter sqrt el draw_pmt draw_sipm noise dark db sipms noise_cut padding t npmt ns nsipm nss) (wf_from_files open_file paths) nothing_simulated) ->
    stopped_by (wf_from_files open_file paths) (first_events (fun o => o) nothing_simulated (fun k => diomira_range event (0, Some k) open_file paths)) dio_more dio_same u.
Proof.
  intros butter sqrt el draw_pmt draw_sipm noise dark db sipms noise_cut padding t npmt ns nsipm nss open_file paths. cbv zeta.
  apply (city_stops (diomira_all (dio_all_event butter sqrt el draw_pmt draw_sipm noise dark db sipms noise_cut padding t npmt ns nsipm nss)) (fun o => o)
    (diomira_step butter sqrt el draw_pmt draw_sipm noise dark db sipms noise_cut padding t npmt ns nsipm nss)
    (dio_app _) (fun _ => eq_refl) (dio_one butter sqrt el draw_pmt draw_sipm noise dark db sipms noise_cut padding t npmt ns nsipm nss) (wf_from_files open_file paths) nothing_simulated dio_more dio_same
    (dio_visits butter sqrt el draw_pmt draw_sipm noise dark db sipms noise_cut padding t npmt ns nsipm nss)).
  intros k. apply whole_eq.
Qed.
Print Assumptions C121_diomira_stopped.

(** ---- isidora ---- *)
Section Isi.
  Variables (butter : Q -> Q * Q * Q) (sqrt : Q -> Q) (pmts : list IreneModel.pmt_row) (n_baseline : nat) (s : shapes).
  Let step := isidora_step butter sqrt pmts n_baseline s.
  Lemma isi_visits w o u : In u (visited (step w) ((fun o => o) o)) -> isi_more w ((fun o => o) o) u \/ exists t', step w ((fun o => o) o) = (t', Ok tt) /\ isi_same t' u.
  Proof.
    assert (Dn : forall cwf sipm n i, List.length cwf <= 1 -> List.length sipm <= 1 -> isi_more w o (isi_add cwf sipm [] [] n i o)).
    { intros cwf sipm n i H1 H2. unfold isi_add, isi_more. j_end. rewrite !app_nil_r. split; [reflexivity|]. split; [reflexivity|]. split; [exists cwf; auto|exists sipm; auto]. }
    assert (D0 : isi_more w o o) by (split; [reflexivity|]; split; [reflexivity|]; split; apply more_same).
    unfold step, isidora_step. cbv beta. intros H.
    rewrite bind_put. apply in_put in H. destruct H as [->|H]; [now left|].
    rewrite bind_put. apply in_put in H. destruct H as [->|H]; [left; apply Dn; cbn; auto|]. rewrite isi_comp in *. cbn [app Nat.add] in *.
    rewrite bind_call. apply in_call in H. destruct (deconv_pmt _ _ _ _ _) as [cwf|]; [|subst; left; apply Dn; cbn; auto].
    destruct (fits_table (n_pmt s) _ cwf); [|destruct H as [<-|[]]; left; apply Dn; cbn; eauto].
    rewrite bind_bind, bind_call. destruct (rmap _ cwf) as [z|]; [|destruct H as [<-|[]]; left; apply Dn; cbn; eauto]. cbn [call bind] in H.
    rewrite bind_put. apply in_put in H. destruct H as [->|H]; [left; apply Dn; cbn; auto|]. rewrite isi_comp in *. cbn [app Nat.add] in *.
    destruct (fits_table (n_sipm s) _ _); [|destruct H as [<-|[]]; left; apply Dn; cbn; eauto].
    rewrite bind_put. apply in_put in H. destruct H as [->|H]; [left; apply Dn; cbn; auto|]. rewrite isi_comp in *. cbn [app Nat.add] in *.
    apply in_put1 in H. destruct H as [->| ->]; [left; apply Dn; cbn; eauto|]. right. eexists. split; [reflexivity|]. repeat split.
  Qed.
End Isi.
Theorem C121_isidora_stopped : forall butter sqrt pmts n_baseline s open_file paths,
  forall u, In u (stopped (isidora_step butter sqrt pmts n_baseline s) (wf_from_files open_file paths) nothing_restored) ->
    stopped_by (wf_from_files open_file paths) (first_events (fun o => o) nothing_restored (fun k => isidora_range butter sqrt pmts n_baseline s (0, Some k) open_file paths)) isi_more isi_same u.
Proof.
  intros butter sqrt pmts n_baseline s open_file paths.
  apply (city_stops (isidora_all butter sqrt pmts n_baseline s) (fun o => o) (isidora_step butter sqrt pmts n_baseline s) (isi_app butter sqrt pmts n_baseline s tt) (fun _ => eq_refl)
    (isi_one butter sqrt pmts n_baseline s) (wf_from_files open_file paths) nothing_restored isi_more isi_same (isi_visits butter sqrt pmts n_baseline s)).
  intros k. apply whole_eq.
Qed.
Print Assumptions C121_isidora_stopped.
