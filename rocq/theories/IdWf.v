(** C117 for the cities that read waveforms *)
From Coq Require Import String.
From Verif Require ReadModel.
From Verif Require Import Base Arrays ConfigModel TablesModel PeaksModel BuffersModel PmapioModel CalibModel IreneModel NoiseModel HypaModel FeeModel TrigModel DioModel PreadModel FrunModel HrunModel IsiModel BfyModel IdSpec.
Local Open Scope nat_scope.

Lemma sub_refl {A} (l : list A) : subsequence l l. Proof. induction l; constructor; assumption. Qed.
Lemma sub_none {A} (l : list A) : subsequence [] l. Proof. induction l; constructor; assumption. Qed.
Lemma sub_app {A} (l m l' m' : list A) : subsequence l m -> subsequence l' m' -> subsequence (l ++ l') (m ++ m').
Proof. induction 1; intros H'; cbn; [exact H'|constructor; auto|constructor; auto]. Qed.
Lemma sub_trans {A} (l m n : list A) : subsequence l m -> subsequence m n -> subsequence l n.
Proof. intros H1 H2. revert l H1. induction H2 as [|a m n H2 IH|a m n H2 IH]; intros l H1; [exact H1| |constructor; now apply IH]. inversion H1; subst; constructor; now apply IH. Qed.
Lemma sub_map {A B} (f : A -> B) l m : subsequence l m -> subsequence (map f l) (map f m).
Proof. induction 1; cbn; constructor; assumption. Qed.
Lemma sub_in {A} (l m : list A) : subsequence l m -> incl l m.
Proof. induction 1 as [|a l m H IH|a l m H IH]; intros x Hx; [exact Hx| |right; now apply IH]. destruct Hx as [<-|Hx]; [now left|right; now apply IH]. Qed.
Lemma rmap_from {A B} (f : A -> result B) l r : rmap f l = Ok r -> forall y, In y r -> exists x, In x l /\ f x = Ok y.
Proof.
  revert r. induction l as [|a l IH]; intros r H y Hy; cbn [rmap] in H; [injection H as <-; destruct Hy|]. destruct (f a) as [b|] eqn:E; [|discriminate]. cbn [rbind] in H. destruct (rmap f l) as [bs|]; [|discriminate]. cbn [rbind] in H. injection H as <-.
  destruct Hy as [<-|Hy]; [exists a; split; [now left|exact E]|]. destruct (IH bs eq_refl y Hy) as (x & I & E'). exists x. split; [now right|exact E'].
Qed.

Lemma zip5_listed {E W S T C} run (es : list E) : forall (ws : list W) (ss : list S) (ts : option (list T)) (cs : option (list C)), subsequence (map w_event (zip5 run ws ss es ts cs)) es.
Proof.
  induction es as [|e es IH]; intros ws ss ts cs; (destruct ws as [|w ws]; [apply sub_none|]; destruct ss as [|s ss]; [apply sub_none|]); [apply sub_none|]. cbn [zip5]. destruct (next_of ts) as [[t ts']|]; [|apply sub_none]. destruct (next_of cs) as [[c cs']|]; [|apply sub_none]. cbn [map w_event]. constructor. apply IH.
Qed.
Lemma read_listed {E W S T C} (open_file : string -> h5file E W S T C) paths : subsequence (map w_event (fst (wf_from_files open_file paths))) (wf_listed open_file paths).
Proof.
  unfold wf_listed. induction paths as [|p paths IH]; [constructor|]. cbn [wf_from_files flat_map]. assert (F : subsequence (map w_event (fst (wf_from_file (open_file p)))) (listed (h_events (open_file p)))).
  { unfold wf_from_file. destruct (h_events (open_file p)) as [es|]; [|constructor]. destruct (h_run (open_file p)) as [[|run runs]|]; [apply sub_none| |apply sub_none]. destruct (h_pmt (open_file p)) as [ws|]; [|apply sub_none]. destruct (h_sipm (open_file p)) as [ss|]; [|apply sub_none]. destruct (all_equal _); [apply zip5_listed|apply sub_none]. }
  destruct (wf_from_file (open_file p)) as [ys [e|]]; cbn [fst] in F.
  - cbn [fst]. rewrite <- (app_nil_r (map _ ys)). apply sub_app; [exact F|apply sub_none].
  - destruct (wf_from_files open_file paths) as [zs e]. cbn [fst] in IH |- *. rewrite map_app. now apply sub_app.
Qed.

Lemma sums_of f32 p n ev r : PmapioModel.sum_rows f32 p n ev = Ok r -> Forall (fun x => s_event x = ev) r.
Proof.
  intros H. apply Forall_forall. intros x Hx. destruct (rmap_from _ _ _ H x Hx) as (i & _ & E). destruct (nth_error (p_times p) i); [|discriminate]. destruct (nth_error (p_widths p) i); [|discriminate]. destruct (nth_error (pmt_sum p) i); [|discriminate]. now injection E as <-.
Qed.
Lemma sensors_of f32 rs n ev r : sensor_rows f32 rs n ev = Ok r -> Forall (fun x => r_event x = ev) r.
Proof.
  unfold sensor_rows. destruct (rmap _ _) as [l|] eqn:E; [|discriminate]. cbn [rbind]. injection 1 as <-. apply Forall_forall. intros x Hx. apply in_concat in Hx. destruct Hx as (y & Hy & Hx). destruct (rmap_from _ _ _ E y Hy) as (i & _ & E'). destruct (waveform rs i); [|discriminate]. cbn [rbind] in E'. injection E' as <-. apply in_map_iff in Hx. destruct Hx as (z & <- & _). reflexivity.
Qed.
Lemma of_event {A} (key : A -> Z) (numbers : list Z) ev l m : Forall (fun x => key x = ev) m -> incl (map key l) numbers -> incl (map key (l ++ m)) (numbers ++ [ev]).
Proof. intros F I x Hx. rewrite map_app in Hx. apply in_app_or in Hx. destruct Hx as [Hx|Hx]; [apply in_or_app; left; now apply I|]. apply in_map_iff in Hx. destruct Hx as (y & <- & Hy). rewrite Forall_forall in F. rewrite (F y Hy). apply in_or_app. right. now left. Qed.
Lemma more {A} (key : A -> Z) (numbers : list Z) ev l : incl (map key l) numbers -> incl (map key l) (numbers ++ [ev]).
Proof. intros I. now apply incl_appl. Qed.
Lemma of_known {A} (key : A -> Z) (numbers : list Z) ev l m : In ev numbers -> Forall (fun x => key x = ev) m -> incl (map key l) numbers -> incl (map key (l ++ m)) numbers.
Proof. intros Iv F I x Hx. rewrite map_app in Hx. apply in_app_or in Hx. destruct Hx as [Hx|Hx]; [now apply I|]. apply in_map_iff in Hx. destruct Hx as (y & <- & Hy). rewrite Forall_forall in F. now rewrite (F y Hy). Qed.
Lemma stored_of f32 numbers ev : In ev numbers -> forall pm t t', store_pmap f32 t ev pm = Ok t' -> pmap_rows_of numbers t -> pmap_rows_of numbers t'.
Proof.
  intros Iv pm t t' H K. unfold store_pmap in H. destruct (store_s1s f32 t (s1s pm) 0 ev) as [t1|] eqn:E1; [|discriminate]. cbn [rbind] in H.
  assert (K1 : pmap_rows_of numbers t1).
  { clear H. revert E1. generalize 0. revert t K. induction (s1s pm) as [|p l IH]; intros t K n H; cbn [store_s1s] in H; [now injection H as <-|]. destruct (PmapioModel.sum_rows f32 p n ev) as [a|] eqn:Ea; [|discriminate]. cbn [rbind] in H. destruct (sensor_rows f32 (p_pmts p) n ev) as [b|] eqn:Eb; [|discriminate]. cbn [rbind] in H.
    eapply IH; [|exact H]. destruct K as (A & B & C & D & F). unfold pmap_rows_of. cbn [t_s1 t_s2 t_si t_s1pmt t_s2pmt]. apply sums_of in Ea. apply sensors_of in Eb. split; [now apply (of_known _ _ ev)|]. split; [exact B|]. split; [exact C|]. split; [now apply (of_known _ _ ev)|exact F]. }
  clear E1 K. revert H. generalize 0. revert t1 K1. induction (s2s pm) as [|p l IH]; intros t1 K n H; cbn [store_s2s] in H; [now injection H as <-|]. destruct (PmapioModel.sum_rows f32 p n ev) as [a|] eqn:Ea; [|discriminate]. cbn [rbind] in H. destruct (sensor_rows f32 (p_pmts p) n ev) as [b|] eqn:Eb; [|discriminate]. cbn [rbind] in H. destruct (sensor_rows f32 (p_sipms p) n ev) as [c|] eqn:Ec; [|discriminate]. cbn [rbind] in H.
  eapply IH; [|exact H]. destruct K as (A & B & C & D & F). unfold pmap_rows_of. cbn [t_s1 t_s2 t_si t_s1pmt t_s2pmt]. apply sums_of in Ea. apply sensors_of in Eb. apply sensors_of in Ec. split; [exact A|]. split; [now apply (of_known _ _ ev)|]. split; [now apply (of_known _ _ ev)|]. split; [exact D|now apply (of_known _ _ ev)].
Qed.

Lemma diomira_events event events : forall o o', diomira_all event events o = Ok o' -> exists l, subsequence l (map w_event events) /\ dt_events o' = dt_events o ++ l /\ dt_numbers o' = dt_numbers o ++ map fst l /\
  dt_in o' = dt_in o + List.length events /\ dt_passed o' = dt_passed o + List.length l /\ List.length (dt_rwf o') = List.length (dt_rwf o) + List.length l /\ List.length (dt_sipm o') = List.length (dt_sipm o) + List.length l /\
  map fst (dt_filter o') = map fst (dt_filter o) ++ map (fun w => fst (w_event w)) events.
Proof.
  induction events as [|w events IH]; intros o o' H; cbn [diomira_all] in H.
  - injection H as <-. exists []. rewrite !app_nil_r. cbn. rewrite !Nat.add_0_r, ?app_nil_r. split; [constructor|]. repeat split.
  - destruct (event _ _ _) as [[[[rwf blr] si]|]|]; [| |discriminate]; cbn [rbind] in H; destruct (IH _ _ H) as (l & S & E1 & E2 & E3 & E4 & E5 & E6 & E7); cbn [dt_events dt_numbers dt_in dt_passed dt_rwf dt_sipm dt_filter] in *.
    + exists (w_event w :: l). cbn [map List.length]. split; [now constructor|]. rewrite E1, E2, E3, E4, E5, E6, E7, !app_length, map_app, <- !app_assoc. cbn. repeat split; lia.
    + exists l. cbn [map List.length]. split; [now constructor|]. rewrite E1, E2, E3, E4, E5, E6, E7, map_app, <- !app_assoc. cbn. repeat split; lia.
Qed.
(** diomira: the events written are some of those listed in the input files, in order, with their numbers and times; the waveforms are as many *)
Theorem C117_diomira event open_file paths o : diomira event open_file paths = Ok o ->
  subsequence (dt_events o) (wf_listed open_file paths) /\ dt_numbers o = map fst (dt_events o) /\ dt_passed o = List.length (dt_events o) /\ List.length (dt_rwf o) = List.length (dt_events o) /\ List.length (dt_sipm o) = List.length (dt_events o) /\
  List.length (dt_filter o) = dt_in o /\ subsequence (map fst (dt_filter o)) (map fst (wf_listed open_file paths)).
Proof.
  unfold diomira. pose proof (read_listed open_file paths) as L. destruct (wf_from_files open_file paths) as [events e]. cbn [fst] in L. destruct (diomira_all event events nothing_simulated) as [o1|] eqn:R; [|discriminate]. cbn [rbind]. destruct e; [discriminate|]. injection 1 as <-.
  destruct (diomira_events _ _ _ _ R) as (l & S & E1 & E2 & E3 & E4 & E5 & E6 & E7). cbn [nothing_simulated dt_events dt_numbers dt_in dt_passed dt_rwf dt_sipm dt_filter app List.length map Nat.add] in *. rewrite E1, E2, E3, E4, E5, E6, E7. split; [eapply sub_trans; eassumption|]. do 4 (split; [reflexivity|]). split; [rewrite <- (map_length fst), E7; apply map_length|]. rewrite <- map_map. now apply sub_map.
Qed.

Lemma pmaps_events {W L} f32 (step : nat -> W -> L -> _) n events : forall o o', pmaps_all f32 step n events o = Ok o' -> it_numbers o = map fst (it_events o) -> pmap_rows_of (it_numbers o) (it_pmaps o) ->
  exists l, subsequence l (map w_event events) /\ it_events o' = it_events o ++ l /\ it_numbers o' = map fst (it_events o') /\ pmap_rows_of (it_numbers o') (it_pmaps o') /\ List.length (it_runs o') = List.length (it_runs o) + List.length l /\
    it_in o' = it_in o + List.length events /\ it_out o' = it_out o + List.length l.
Proof.
  induction events as [|w events IH]; intros o o' H N K; cbn [pmaps_all] in H.
  - injection H as <-. exists []. rewrite app_nil_r. cbn. rewrite !Nat.add_0_r. split; [constructor|]. split; [reflexivity|]. split; [exact N|]. split; [exact K|]. repeat split.
  - destruct (step _ _ _) as [[pm|]|]; [| |discriminate]; cbn [rbind] in H.
    + destruct (nonempty_pmap pm).
      * destruct (store_pmap f32 (it_pmaps o) (fst (w_event w)) _) as [t|] eqn:Es; [|discriminate]. cbn [rbind] in H. destruct (store_trigger _ _ _ _) as [trg|]; [|discriminate]. cbn [rbind] in H.
        destruct (IH _ _ H) as (l & S & E1 & E2 & E3 & E4 & E5 & E6); cbn [it_events it_numbers it_pmaps it_runs it_in it_out].
        { now rewrite N, map_app. }
        { eapply stored_of; [|exact Es|]; [apply in_or_app; right; now left|]. destruct K as (A & B & C & D & F). split; [now apply more|]. split; [now apply more|]. split; [now apply more|]. split; now apply more. }
        cbn [it_events it_numbers it_pmaps it_runs it_in it_out] in *. exists (w_event w :: l). cbn [map List.length]. split; [now constructor|]. split; [now rewrite E1, <- app_assoc|]. split; [exact E2|]. split; [exact E3|]. rewrite E4, E5, E6, app_length. cbn. repeat split; lia.
      * destruct (IH _ _ H) as (l & S & E1 & E2 & E3 & E4 & E5 & E6); [exact N|exact K|]. cbn [it_events it_numbers it_pmaps it_runs it_in it_out] in *. exists l. cbn [map List.length]. split; [now constructor|]. split; [exact E1|]. split; [exact E2|]. split; [exact E3|]. rewrite E4, E5, E6. repeat split; lia.
    + destruct (IH _ _ H) as (l & S & E1 & E2 & E3 & E4 & E5 & E6); [exact N|exact K|]. cbn [it_events it_numbers it_pmaps it_runs it_in it_out] in *. exists l. cbn [map List.length]. split; [now constructor|]. split; [exact E1|]. split; [exact E2|]. split; [exact E3|]. rewrite E4, E5, E6. repeat split; lia.
Qed.
Lemma pmaps_ids {W L} f32 (step : nat -> W -> L -> _) n open_file paths o : pmaps_of_files f32 step n open_file paths = Ok o ->
  subsequence (it_events o) (wf_listed open_file paths) /\ it_numbers o = map fst (it_events o) /\ pmap_rows_of (it_numbers o) (it_pmaps o) /\ List.length (it_runs o) = List.length (it_events o) /\ it_out o = List.length (it_events o).
Proof.
  unfold pmaps_of_files. pose proof (read_listed open_file paths) as R. destruct (wf_from_files open_file paths) as [events e]. cbn [fst] in R. destruct (pmaps_all f32 step n events nothing_found) as [o1|] eqn:P; [|discriminate]. cbn [rbind]. destruct e; [discriminate|]. injection 1 as <-.
  destruct (pmaps_events _ _ _ _ _ _ P) as (l & S & E1 & E2 & E3 & E4 & E5 & E6); [reflexivity|split; [|split; [|split; [|split]]]; intros x []|]. cbn [nothing_found it_events it_runs it_out app List.length Nat.add] in *. subst l. split; [eapply sub_trans; eassumption|]. auto.
Qed.
(** irene and hypathia: the events written are some of those listed in the input files, in order; every row of the tables of PMaps is of one of them *)
Theorem C117_irene f32 step n open_file paths o : irene f32 step n open_file paths = Ok o ->
  subsequence (it_events o) (wf_listed open_file paths) /\ it_numbers o = map fst (it_events o) /\ pmap_rows_of (it_numbers o) (it_pmaps o) /\ List.length (it_runs o) = List.length (it_events o) /\ it_out o = List.length (it_events o).
Proof. apply pmaps_ids. Qed.
Theorem C117_hypathia f32 rn pmts sipms p wl nss open_file paths o : hypathia f32 rn pmts sipms p wl nss open_file paths = Ok o ->
  subsequence (it_events o) (wf_listed open_file paths) /\ it_numbers o = map fst (it_events o) /\ pmap_rows_of (it_numbers o) (it_pmaps o) /\ List.length (it_runs o) = List.length (it_events o) /\ it_out o = List.length (it_events o).
Proof. apply pmaps_ids. Qed.
(** isidora writes every event it reads *)
Theorem C117_isidora butter sqrt pmts n_baseline s open_file paths o : isidora butter sqrt pmts n_baseline s open_file paths = Ok o ->
  subsequence (si_events o) (wf_listed open_file paths) /\ si_numbers o = map fst (si_events o) /\ List.length (si_cwf o) = List.length (si_events o) /\ List.length (si_sipm o) = List.length (si_events o) /\ List.length (si_runs o) = List.length (si_events o) /\ si_in o = List.length (si_events o).
Proof.
  unfold isidora. pose proof (read_listed open_file paths) as R. destruct (wf_from_files open_file paths) as [events e]. cbn [fst] in R. destruct (isidora_all _ _ _ _ _ events nothing_restored) as [o1|] eqn:P; [|discriminate]. cbn [rbind]. destruct e; [discriminate|]. injection 1 as <-.
  assert (G : forall l o o', isidora_all butter sqrt pmts n_baseline s l o = Ok o' -> si_events o' = si_events o ++ map w_event l /\ si_numbers o' = si_numbers o ++ map (fun w => fst (w_event w)) l /\ List.length (si_cwf o') = List.length (si_cwf o) + List.length l /\
    List.length (si_sipm o') = List.length (si_sipm o) + List.length l /\ List.length (si_runs o') = List.length (si_runs o) + List.length l /\ si_in o' = si_in o + List.length l).
  { clear. induction l as [|w l IH]; intros o o' H; cbn [isidora_all] in H.
    - injection H as <-. cbn. rewrite !app_nil_r, !Nat.add_0_r. repeat split.
    - destruct (isidora_event _ _ _ _ _ w) as [z|]; [|discriminate]. cbn [rbind] in H. destruct (IH _ _ H) as (E1 & E2 & E3 & E4 & E5 & E6). cbn [si_events si_numbers si_cwf si_sipm si_runs si_in] in *. rewrite E1, E2, E3, E4, E5, E6, !app_length, <- !app_assoc. cbn. repeat split; lia. }
  destruct (G _ _ _ P) as (E1 & E2 & E3 & E4 & E5 & E6). cbn [nothing_restored si_events si_numbers si_cwf si_sipm si_runs si_in app List.length Nat.add] in *. rewrite E1, E2, E3, E4, E5, E6, !map_length, map_map. auto 10.
Qed.
Print Assumptions C117_diomira.
Print Assumptions C117_irene.
Print Assumptions C117_hypathia.
Print Assumptions C117_isidora.
