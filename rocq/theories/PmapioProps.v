(** C13: PMaps written to a file are read back *)
From Verif Require Import Base PeaksModel PeaksProofs BuffersModel PmapioModel PmapioSpec PmapioProofs.
Local Open Scope nat_scope.

Section RoundTrip.
  Variables (f32 : Q -> Q) (l : list (Z * pmap)).
  Hypotheses (Hok : forall ev pm, In (ev, pm) l -> pmap_ok pm) (Hnd : NoDup (map fst l)).
  Let t : pm_tables := {| t_s1 := sum_table f32 s1s l; t_s2 := sum_table f32 s2s l; t_si := sensor_table f32 s2s p_sipms l;
                          t_s1pmt := sensor_table f32 s1s p_pmts l; t_s2pmt := sensor_table f32 s2s p_pmts l |}.

  Lemma store_all : store_pmaps f32 empty_tables l = Ok t.
  Proof. rewrite (store_pmaps_ok f32 l Hok). reflexivity. Qed.

  Lemma load_event_back ev pm : In (ev, pm) l -> load_event t ev = Ok (round_pmap f32 pm).
  Proof.
    intros Hin. destruct (Hok ev pm Hin) as (A1 & A2 & A3 & A4). unfold load_event, t. cbn [t_s1 t_s2 t_si t_s1pmt t_s2pmt].
    rewrite !(event_sums f32 _ l ev pm Hnd Hin), !(event_sensors f32 _ _ l ev pm Hnd Hin), s1s_back by assumption. cbn [rbind]. rewrite s2s_back by assumption. reflexivity.
  Qed.

  Lemma in_sum_table sel ev : (forall e pm p, In (e, pm) l -> In p (sel pm) -> p_times p <> []) ->
    In ev (map s_event (sum_table f32 sel l)) <-> exists pm, In (ev, pm) l /\ sel pm <> [].
  Proof.
    intros H. rewrite in_map_iff. unfold sum_table. split.
    - intros (r & <- & Hr). apply in_flat_map in Hr. destruct Hr as ([e pm] & Hin & Hr). cbn [fst snd] in Hr. apply in_flat_map in Hr. destruct Hr as ([k p] & Hk & Hr). apply sums_event in Hr. destruct Hr as [-> _].
      exists pm. split; [assumption|]. apply in_numbered in Hk. destruct (sel pm); [destruct Hk as [_ Hk]; destruct (k - 0); discriminate|discriminate].
    - intros (pm & Hin & Hs). destruct (sel pm) as [|p ps] eqn:E; [easy|]. assert (Hp : p_times p <> []) by (eapply H; [exact Hin|rewrite E; now left]).
      destruct (p_times p) as [|t0 ts] eqn:Et; [easy|].
      exists {| s_event := ev; s_peak := number 0; s_time := f32 t0; s_bwidth := f32 (nth 0 (p_widths p) 0%Q); s_ene := f32 (nth 0 (pmt_sum p) 0%Q) |}. split; [reflexivity|].
      apply in_flat_map. exists (ev, pm). split; [assumption|]. cbn [fst snd]. rewrite E. apply in_flat_map. exists (0, p). split; [now left|].
      unfold sums_of. cbn [fst snd]. rewrite Et. cbn [length seq map]. left. reflexivity.
  Qed.

  Definition stored_events (ev : Z) : Prop := exists pm, In (ev, pm) l /\ has_peaks pm.
  Lemma in_table_events ev : In ev (table_events t) <-> stored_events ev.
  Proof.
    unfold table_events, t. cbn [t_s1 t_s2]. rewrite in_app_iff, !in_sum_table.
    - unfold stored_events, has_peaks. split; [intros [(pm & A & B)|(pm & A & B)]; exists pm; tauto|intros (pm & A & [B|B]); [left|right]; eauto].
    - intros e pm p Hin Hp. destruct (Hok e pm Hin) as (_ & A2 & _). apply (A2 p Hp).
    - intros e pm p Hin Hp. destruct (Hok e pm Hin) as (A1 & _). apply (A1 p Hp).
  Qed.

  Lemma subsetb_spec a b : subsetb a b = true <-> forall x, In x a -> In x b.
  Proof.
    unfold subsetb. rewrite forallb_forall. split; intros H x Hx; specialize (H x Hx).
    - apply existsb_exists in H. destruct H as (y & Hy & E). apply Z.eqb_eq in E. now subst.
    - apply existsb_exists. exists x. split; [assumption|apply Z.eqb_refl].
  Qed.

  Lemma integrity run_events : check_file_integrity run_events t = (if subsetb run_events (table_events t) && subsetb (table_events t) run_events then Ok tt else Err InvalidInputFileStructure).
  Proof. reflexivity. Qed.
  Lemma integrity_ok run_events : (forall ev, In ev run_events <-> stored_events ev) -> check_file_integrity run_events t = Ok tt.
  Proof.
    intros H. rewrite integrity. assert (E : subsetb run_events (table_events t) && subsetb (table_events t) run_events = true); [|now rewrite E].
    apply andb_true_iff. rewrite !subsetb_spec. split; intros x Hx; [apply in_table_events, H|apply H, in_table_events]; assumption.
  Qed.

  Lemma eager_back run_events : (forall ev, In ev run_events <-> stored_events ev) ->
    exists d, load_pmaps_eager run_events t = Ok d /\ NoDup (map fst d) /\
      forall ev pm', In (ev, pm') d <-> exists pm, In (ev, pm) l /\ has_peaks pm /\ pm' = round_pmap f32 pm.
  Proof.
    intros H. unfold load_pmaps_eager. rewrite (integrity_ok _ H). cbn [rbind].
    assert (E : forall evs, (forall ev, In ev evs -> stored_events ev) ->
      exists d, rmap (fun ev => rbind (load_event t ev) (fun pm => Ok (ev, pm))) evs = Ok d /\ map fst d = evs /\
                forall ev pm', In (ev, pm') d -> exists pm, In (ev, pm) l /\ has_peaks pm /\ pm' = round_pmap f32 pm).
    { induction evs as [|ev evs IH]; intros Hs; [exists []; split; [reflexivity|split; [reflexivity|easy]]|].
      destruct (Hs ev (or_introl eq_refl)) as (pm & Hin & Hp). destruct IH as (d & E1 & E2 & E3); [intros; apply Hs; now right|].
      cbn [rmap]. rewrite (load_event_back ev pm Hin). cbn [rbind]. rewrite E1. cbn [rbind]. exists ((ev, round_pmap f32 pm) :: d). split; [reflexivity|]. split; [cbn; now f_equal|].
      intros ev' pm' [K|K]; [injection K as <- <-; eauto|eauto]. }
    destruct (E (nodup Z.eq_dec (table_events t))) as (d & E1 & E2 & E3).
    { intros ev Hev. apply nodup_In in Hev. now apply in_table_events. }
    exists d. split; [assumption|]. split; [rewrite E2; apply NoDup_nodup|]. intros ev pm'. split; [apply E3|]. intros (pm & Hin & Hp & ->).
    assert (K : In ev (map fst d)) by (rewrite E2; apply nodup_In, in_table_events; exists pm; auto). apply in_map_iff in K. destruct K as ([e q] & <- & K). cbn [fst] in *.
    destruct (E3 e q K) as (pm2 & Hin2 & _ & ->). assert (pm2 = pm); [|now subst].
    clear -Hnd Hin Hin2. induction l as [|[e1 p1] l0 IH]; [easy|]. cbn in Hnd. inversion Hnd as [|? ? N1 N2]; subst. destruct Hin as [A|A], Hin2 as [B|B]; try congruence; [injection A as -> ->|injection B as -> ->|auto];
    exfalso; apply N1; apply in_map_iff; eexists; (split; [|eassumption]); reflexivity.
  Qed.

  Lemma lazy_back run_events skip n : (forall ev, In ev run_events <-> stored_events ev) ->
    exists d, load_pmaps_lazy run_events t skip n = Ok d /\
      Forall2 (fun ev e => exists pm, In (ev, pm) l /\ e = (ev, round_pmap f32 pm))
              (firstn (match n with Some n => n | None => length run_events end) (skipn skip run_events)) d.
  Proof.
    intros H. unfold load_pmaps_lazy. rewrite (integrity_ok _ H). cbn [rbind]. unfold slice. set (k := match n with Some n => n | None => length run_events end).
    replace (skip + k - skip) with k by lia.
    assert (Hall : forall ev, In ev (firstn k (skipn skip run_events)) -> stored_events ev).
    { intros ev Hev. apply H. rewrite <- (firstn_skipn skip run_events). apply in_or_app. right. rewrite <- (firstn_skipn k (skipn skip run_events)). apply in_or_app. now left. }
    induction (firstn k (skipn skip run_events)) as [|ev evs IH]; [exists []; split; [reflexivity|constructor]|].
    destruct (Hall ev (or_introl eq_refl)) as (pm & Hin & Hp). destruct IH as (d & E1 & E2); [intros; apply Hall; now right|].
    cbn [rmap]. rewrite (load_event_back ev pm Hin). cbn [rbind].
    destruct (of_event_s ev (t_s1 t) ++ of_event_s ev (t_s2 t)) as [|r rs] eqn:Er.
    - exfalso. assert (K : In ev (table_events t)) by (apply in_table_events; exists pm; auto). unfold table_events in K. rewrite <- map_app in K. apply in_map_iff in K. destruct K as (r & <- & K).
      assert (K2 : In r (of_event_s (s_event r) (t_s1 t) ++ of_event_s (s_event r) (t_s2 t))); [|rewrite Er in K2; destruct K2].
      unfold of_event_s. rewrite <- filter_app. apply filter_In. split; [assumption|apply Z.eqb_refl].
    - assert (s_event r = ev) as ->.
      { assert (K : In r (of_event_s ev (t_s1 t) ++ of_event_s ev (t_s2 t))) by (rewrite Er; now left). unfold of_event_s in K. rewrite <- filter_app in K. apply filter_In in K. now apply Z.eqb_eq. }
      rewrite E1. cbn [rbind]. eexists. split; [reflexivity|]. constructor; [eauto|assumption].
  Qed.
End RoundTrip.

(** what is written is read back, for the events with peaks; the run table has these events *)
Theorem C13_round_trip f32 l run_events :
  (forall ev pm, In (ev, pm) l -> pmap_ok pm) -> NoDup (map fst l) ->
  (forall ev, In ev run_events <-> exists pm, In (ev, pm) l /\ has_peaks pm) ->
  exists t d, store_pmaps f32 empty_tables l = Ok t /\ load_pmaps_eager run_events t = Ok d /\ NoDup (map fst d) /\
    forall ev pm', In (ev, pm') d <-> exists pm, In (ev, pm) l /\ has_peaks pm /\ pm' = round_pmap f32 pm.
Proof. intros H N R. eexists. destruct (eager_back f32 l H N run_events R) as (d & E). exists d. split; [now apply store_all|exact E]. Qed.
Print Assumptions C13_round_trip.

(** with exact numbers the very same PMaps are read back (the SiPMs of a peak without SiPMs have no shape) *)
Definition normal (p : peak) : Prop := r_ids (p_sipms p) = [] -> p_sipms p = empty_responses.
Lemma round_id_resp r : round_responses (fun x => x) r = r.
Proof. destruct r as [ids [c m]]. unfold round_responses. cbn. rewrite (map_ext _ (fun x => x)) by apply map_id. now rewrite map_id. Qed.
Lemma round_id_peak p : normal p -> round_peak (fun x => x) p = p.
Proof.
  destruct p as [t w a s]. unfold normal, round_peak. cbn. intros H. rewrite !map_id, round_id_resp. f_equal. destruct (r_ids s) eqn:E; [symmetry; auto|apply round_id_resp].
Qed.
Theorem C13_exact_numbers l run_events :
  (forall ev pm, In (ev, pm) l -> pmap_ok pm /\ has_peaks pm /\ (forall p, In p (s1s pm ++ s2s pm) -> normal p)) -> NoDup (map fst l) ->
  (forall ev, In ev run_events <-> In ev (map fst l)) ->
  exists t d, store_pmaps (fun x => x) empty_tables l = Ok t /\ load_pmaps_eager run_events t = Ok d /\ NoDup (map fst d) /\ forall e, In e d <-> In e l.
Proof.
  intros H N R. destruct (C13_round_trip (fun x => x) l run_events) as (t & d & E1 & E2 & E3 & E4).
  - intros ev pm Hin. now apply (H ev pm).
  - assumption.
  - intros ev. rewrite R, in_map_iff. split; [intros ([e pm] & <- & Hin); exists pm; split; [assumption|now apply (H e pm)]|intros (pm & Hin & _); exists (ev, pm); auto].
  - exists t, d. split; [assumption|]. split; [assumption|]. split; [assumption|]. assert (Hr : forall ev pm, In (ev, pm) l -> round_pmap (fun x => x) pm = pm).
    { intros ev [a b] Hin. destruct (H ev _ Hin) as (_ & _ & Hn). unfold round_pmap. cbn [s1s s2s] in *. f_equal; (rewrite map_ext_in with (g := fun x => x); [apply map_id|]); intros p Hp; apply round_id_peak, Hn, in_or_app; auto. }
    intros [ev pm']. rewrite E4. split; [intros (pm & Hin & _ & ->); now rewrite (Hr ev pm Hin)|]. intros Hin. exists pm'. split; [assumption|]. split; [now apply (H ev pm')|symmetry; now apply (Hr ev)].
Qed.
Print Assumptions C13_exact_numbers.

(** the lazy reader gives the same PMaps, event by event in the order of the run table, from the requested ones *)
Theorem C13_lazy_reader f32 l run_events skip n :
  (forall ev pm, In (ev, pm) l -> pmap_ok pm) -> NoDup (map fst l) ->
  (forall ev, In ev run_events <-> exists pm, In (ev, pm) l /\ has_peaks pm) ->
  exists t d, store_pmaps f32 empty_tables l = Ok t /\ load_pmaps_lazy run_events t skip n = Ok d /\
    Forall2 (fun ev e => exists pm, In (ev, pm) l /\ e = (ev, round_pmap f32 pm))
            (firstn (match n with Some n => n | None => length run_events end) (skipn skip run_events)) d.
Proof. intros H N R. eexists. destruct (lazy_back f32 l H N run_events skip n R) as (d & E). exists d. split; [now apply store_all|exact E]. Qed.
Print Assumptions C13_lazy_reader.

(** a file where the run table has an event without peaks cannot be read at all *)
Theorem C13_event_without_peaks f32 l run_events ev :
  (forall ev pm, In (ev, pm) l -> pmap_ok pm) -> NoDup (map fst l) ->
  In ev run_events -> (forall pm, In (ev, pm) l -> ~ has_peaks pm) ->
  exists t, store_pmaps f32 empty_tables l = Ok t /\ load_pmaps_eager run_events t = Err InvalidInputFileStructure.
Proof.
  intros H N R Hn. eexists. split; [now apply store_all|]. unfold load_pmaps_eager. rewrite integrity. 
  match goal with |- context [if ?b then _ else _] => destruct b eqn:E end; [|reflexivity]. exfalso.
  apply andb_true_iff in E. destruct E as [E _]. rewrite subsetb_spec in E. specialize (E ev R). apply in_table_events in E; [|assumption..]. destruct E as (pm & Hin & Hp). exact (Hn pm Hin Hp).
Qed.
Print Assumptions C13_event_without_peaks.

(** two events, one with two S2s *)
Definition demo_resp (ids : list nat) (m : list (list Q)) : responses := {| r_ids := ids; r_wfs := {| cols := 2; rows := m |} |}.
Definition demo_peak (ids : list nat) (a b : Q) (s : responses) : peak :=
  {| p_times := [a; b]; p_widths := [1; 1]%Q; p_pmts := demo_resp ids (map (fun i => [a; b]) ids); p_sipms := s |}.
Definition demo_pmaps : list (Z * pmap) :=
  [(7%Z, {| s1s := [demo_peak [0; 1] 3%Q 4%Q empty_responses]; s2s := [demo_peak [1; 0] 5%Q 6%Q (demo_resp [12; 10] [[1; 2]; [3; 4]]%Q); demo_peak [0; 1] 7%Q 8%Q empty_responses] |});
   (3%Z, {| s1s := []; s2s := [demo_peak [0; 1] 1%Q 2%Q empty_responses] |})].
Example C13_demo_ok : forall ev pm, In (ev, pm) demo_pmaps -> pmap_ok pm /\ has_peaks pm.
Proof.
  assert (Hs : forall n r, NoDup (r_ids r) -> length (rows (r_wfs r)) = length (r_ids r) -> Forall (fun row => length row = n) (rows (r_wfs r)) -> cols (r_wfs r) = n -> sensors_ok n r) by (intros; now constructor).
  assert (N2 : forall a b : nat, a <> b -> NoDup [a; b]) by (intros a b H; constructor; [intros [C|[]]; now apply H|repeat constructor; easy]).
  intros ev pm [E|[E|[]]]; injection E as <- <-.
  - split; [|now left]. split; [|split; [|split; discriminate]].
    + intros p [<-|[]]. split; [discriminate|]. split; [reflexivity|]. split; [|reflexivity]. apply Hs; cbn; [apply N2; lia|reflexivity|repeat constructor|reflexivity].
    + intros p [<-|[<-|[]]]; (split; [discriminate|]; split; [reflexivity|]; split; [apply Hs; cbn; [apply N2; lia|reflexivity|repeat constructor|reflexivity]|]); [right|now left].
      apply Hs; cbn; [apply N2; lia|reflexivity|repeat constructor|reflexivity].
  - split; [|now right]. split; [easy|]. split; [|split; discriminate]. intros p [<-|[]]. split; [discriminate|]. split; [reflexivity|]. split; [apply Hs; cbn; [apply N2; lia|reflexivity|repeat constructor|reflexivity]|now left].
Qed.
Example C13_demo : exists t, store_pmaps (fun x => x) empty_tables demo_pmaps = Ok t /\ length (t_si t) = 4 /\ length (t_s2 t) = 6 /\
  load_pmaps_lazy [7; 3]%Z t 0 None = Ok demo_pmaps /\ load_pmaps_lazy [7; 3]%Z t 1 None = Ok (skipn 1 demo_pmaps).
Proof. eexists. split; [vm_compute; reflexivity|]. split; [reflexivity|]. split; [reflexivity|]. split; vm_compute; reflexivity. Qed.
