(** C117 for the cities that read simulations *)
From Coq Require Import String Qround.
From Verif Require ReadModel.
From Verif Require Import Base Arrays TablesModel PeaksModel BuffersModel DetsimModel S1Model DsimModel SbinModel FrunModel BfyModel DetModel.
From Verif Require Import IdSpec IdWf.
From Verif Require IdReco.
Local Open Scope nat_scope.

Lemma write_from_of base nexus times : forall events i, Forall (fun r => nexus_evt r = nexus /\ exists j, (i <= j)%Z /\ evt_number r = (base + j)%Z) (write_from i base nexus times events).
Proof.
  induction times as [|t times IH]; intros [|[e k] events] i; try constructor.
  - split; [reflexivity|]. exists i. split; [lia|reflexivity].
  - eapply Forall_impl; [|apply (IH events (i + 1)%Z)]. intros r (A & j & B & C). split; [exact A|]. exists j. split; [lia|exact C].
Qed.
Lemma save_buffers_of c order nexus t pb p sb s rows : save_buffers c order nexus t pb p sb s = Ok rows -> Forall (fun r => nexus_evt r = nexus /\ exists j, (0 <= j)%Z /\ evt_number r = (nexus * max_subevt c + j)%Z) rows.
Proof.
  unfold save_buffers. destruct (find_signal_start _ _ _) as [pulses|]; [|discriminate]. cbn [rbind]. destruct pulses as [|q pulses]; [injection 1 as <-; constructor|]. destruct (trigger_times _ _ _) as [times|]; [|discriminate]. cbn [rbind].
  destruct (position_signal _ _ _ _ _ _) as [bs|]; [|discriminate]. cbn [rbind]. destruct (rmap order bs) as [os|]; [|discriminate]. cbn [rbind]. injection 1 as <-. apply write_from_of.
Qed.
Lemma stored_rows pd sd c ev rows stored : rmap (store_row pd sd c) rows = Ok stored -> Forall (fun r => nexus_evt r = ev /\ exists j, (0 <= j)%Z /\ evt_number r = (ev * max_subevt c + j)%Z) rows -> Forall (trigger_of (max_subevt c) [ev]) stored.
Proof.
  intros H F. apply Forall_forall. intros r Hr. destruct (rmap_from _ _ _ H r Hr) as (x & Hx & E). rewrite Forall_forall in F. destruct (F x Hx) as (A & j & B & C). unfold store_row in E. destruct (store_time _); [|discriminate]. cbn [rbind] in E. destruct (store_array _ _ (eng x)); [|discriminate]. cbn [rbind] in E. destruct (store_array _ _ (trk x)); [|discriminate]. cbn [rbind] in E. injection E as <-.
  split; cbn [br_nexus br_event]; [left; now symmetry|]. exists j. split; [exact B|]. now rewrite A, C.
Qed.
Lemma trigger_more n a b rows : Forall (trigger_of n a) rows -> Forall (trigger_of n (a ++ b)) rows.
Proof. apply Forall_impl. intros r [I J]. split; [apply in_or_app; now left|exact J]. Qed.
Lemma trigger_after n a b rows : Forall (trigger_of n b) rows -> Forall (trigger_of n (a ++ b)) rows.
Proof. apply Forall_impl. intros r [I J]. split; [apply in_or_app; now right|exact J]. Qed.
Lemma rmap_nil {A B} (f : A -> result B) l : rmap f l = Ok [] -> l = [].
Proof. destruct l as [|a l]; [reflexivity|]. cbn [rmap]. destruct (f a); [|discriminate]. cbn [rbind]. destruct (rmap f l); discriminate. Qed.

Section Buffy.
  Variables (float : string -> option Q) (unit : string -> option Q) (is_pmt_name : string -> bool) (pmt_db sipm_db : list nat).
  Notation run := (buffy_run float unit is_pmt_name pmt_db sipm_db).
  Lemma buffy_events c rate draw items : forall o o', buffy_all pmt_db sipm_db c rate draw items o = Ok o' -> exists l rows, subsequence l (map fst items) /\ bt_numbers o' = bt_numbers o ++ l /\ bt_rows o' = bt_rows o ++ rows /\ Forall (trigger_of (max_subevt c) l) rows /\ incl l (map br_nexus rows) /\
    map fst (bt_detected o') = map fst (bt_detected o) ++ map fst items /\ bt_in o' = bt_in o + List.length items.
  Proof.
    induction items as [|[ev [p s]] items IH]; intros o o' H; cbn [buffy_all] in H.
    - injection H as <-. exists [], []. cbn [map]. rewrite !app_nil_r, Nat.add_0_r. split; [constructor|]. repeat (split; [reflexivity|]). split; [constructor|]. split; [intros x []|]. split; reflexivity.
    - destruct (_ || _).
      + destruct (IH _ _ H) as (l & rows & S & E1 & E2 & E3 & E4 & E5 & E6). cbn [bt_numbers bt_rows bt_detected bt_in] in *. exists l, rows. cbn [map fst List.length]. split; [now constructor|]. rewrite E5, E6, map_app, <- app_assoc. repeat (split; [assumption|]). split; [reflexivity|lia].
      + destruct (rmap to_simrow p) as [ps|]; [|discriminate]. cbn [rbind] in H. destruct (rmap to_simrow s) as [ss|]; [|discriminate]. cbn [rbind] in H. destruct (buffy_event _ _ _ _) as [out|] eqn:B; [|discriminate]. cbn [rbind] in H. destruct (rmap (store_row pmt_db sipm_db c) out) as [stored|] eqn:St; [|discriminate]. cbn [rbind] in H. cbv zeta in H.
        assert (F : Forall (fun r => nexus_evt r = ev /\ exists j, (0 <= j)%Z /\ evt_number r = (ev * max_subevt c + j)%Z) out).
        { unfold buffy_event in B. cbn [sim_pmts sim_sipms sim_evt sim_time] in B. destruct ps; [injection B as <-; constructor|]. destruct ss; [injection B as <-; constructor|]. destruct (first_and_last_times _ _ _ _) as [[t0 t1]|]; [|discriminate]. cbn [rbind] in B. destruct (bin_sensors _ (pmt_wid c) _ _ _) as [pb pm]. destruct (bin_sensors _ (sipm_wid c) _ _ _) as [sb sm]. exact (save_buffers_of _ _ _ _ _ _ _ _ _ B). }
        pose proof (stored_rows _ _ _ _ _ _ St F) as T. destruct (IH _ _ H) as (l & rows & S & E1 & E2 & E3 & E4 & E5 & E6). cbn [bt_numbers bt_rows bt_detected bt_in] in *.
        destruct out as [|x out].
        * injection St as <-. rewrite app_nil_r in *. exists l, rows. cbn [map fst List.length]. split; [now constructor|]. rewrite E5, E6, map_app, <- app_assoc. repeat (split; [assumption|]). split; [reflexivity|lia].
        * exists (ev :: l), (stored ++ rows). cbn [map fst List.length]. split; [now constructor|]. rewrite E1, E2, E5, E6, (map_app fst), <- !app_assoc. repeat (split; [reflexivity|]).
          split; [apply Forall_app; split; [exact (trigger_more _ [ev] l _ T)|exact (trigger_after _ [ev] l _ E3)]|]. split; [|split; [reflexivity|lia]].
          rewrite map_app. intros y [<-|Hy]; apply in_or_app; [left|right; now apply E4]. destruct stored as [|r stored]; [apply rmap_nil in St; discriminate|]. inversion T as [|? ? [I _] _]; subst. destruct I as [->|[]]. now left.
  Qed.
  (** buffy: the simulated events copied are some of those listed in the files, in order, and they are those with buffers; the number of a buffer tells the event it comes from *)
  Theorem C117_buffy mus b rate draw files o : run mus b rate draw files = Ok (Some o) ->
    subsequence (bt_numbers o) (flat_map nf_events files) /\ (exists mt, check_max_time mus (cf_max b) (cf_buffer b) = Ok mt /\ Forall (trigger_of (Qceiling (mt / cf_buffer b)) (bt_numbers o)) (bt_rows o)) /\ incl (bt_numbers o) (map br_nexus (bt_rows o)) /\ subsequence (map fst (bt_detected o)) (flat_map nf_events files) /\ List.length (bt_detected o) = bt_in o.
  Proof.
    unfold buffy_run. destruct (check_max_time _ _ _) as [mt|] eqn:Mt; [|discriminate]. cbn [rbind]. destruct (pmt_and_sipm_bin_width_safe _ _ _) as [[pw sw]|e]; [|intros H; exfalso; destruct e; try discriminate; do 37 (destruct n as [|n]; try discriminate)].
    assert (L : subsequence (map fst (fst (ReadModel.over_files (sensors_of_nfile float unit is_pmt_name pmt_db) files))) (flat_map nf_events files)).
      { apply IdReco.over_listed. intros f. unfold sensors_of_nfile. destruct (nf_conf f) as [conf|]; [|apply sub_none]. destruct (get_sensor_binning _ _ _ _) as [bins|]; [|apply sub_none]. unfold ReadModel.sensors_of_file. cbv zeta. cbn [ReadModel.m_pos ReadModel.m_events ReadModel.m_resp ReadModel.m_bins].
        destruct (forallb _ _); [|apply sub_none]. cbn [fst]. rewrite map_map. cbn [fst]. rewrite map_id. apply sub_refl. }
      destruct (ReadModel.over_files _ files) as [items e]. cbn [fst] in L. destruct (buffy_all _ _ _ _ _ items nothing_read) as [o1|] eqn:R; [|discriminate]. cbn [rbind]. destruct e; [discriminate|]. injection 1 as <-.
      destruct (buffy_events _ _ _ _ _ _ R) as (l & rows & S & E1 & E2 & E3 & E4 & E5 & E6). cbn [nothing_read bt_numbers bt_rows bt_detected bt_in app map Nat.add] in *. rewrite E1, E2, E5. split; [eapply sub_trans; eassumption|]. split; [exists mt; split; [reflexivity|exact E3]|]. split; [exact E4|]. split; [exact L|].
      apply (f_equal (@List.length _)) in E5. rewrite !map_length in E5. now rewrite E5, E6.
  Qed.
End Buffy.

Lemma mapi_from_map {A B C} (f : nat -> A -> B) (g : B -> C) (h : A -> C) : (forall n a, g (f n a) = h a) -> forall l, map g (mapi f l) = map h l.
Proof. intros H l. unfold mapi. generalize 0. induction l as [|a l IH]; intros n; [reflexivity|]. cbn [mapi_from map]. now rewrite H, IH. Qed.
Section Detsim.
  Variables (sqrtQ emitted : Q -> Q) (s1_lt : list Q -> list Q -> list Q -> result (list (list Q))) (s1_sensors : nat) (p : physics) (lt_pmt lt_sipm : light_table) (ACTIVE BUFFER : nat) (pmt_db sipm_db : list nat) (rn : nat -> det_draws).
  Notation city := (detsim_run sqrtQ emitted s1_lt s1_sensors p lt_pmt lt_sipm ACTIVE BUFFER pmt_db sipm_db rn).
  Lemma detsim_events c items : forall o o', detsim_all sqrtQ emitted s1_lt s1_sensors p lt_pmt lt_sipm ACTIVE BUFFER pmt_db sipm_db rn c items o = Ok o' -> exists l rows, subsequence l (map di_event items) /\ dt_numbers o' = dt_numbers o ++ l /\ dt_rows o' = dt_rows o ++ rows /\ Forall (trigger_of (max_subevt c) l) rows /\ incl l (map br_nexus rows) /\
    map fst (dt_active o') = map fst (dt_active o) ++ map di_event items /\ dt_in o' = dt_in o + List.length items.
  Proof.
    induction items as [|e items IH]; intros o o' H; cbn [detsim_all] in H.
    - injection H as <-. exists [], []. cbn [map]. rewrite !app_nil_r, Nat.add_0_r. split; [constructor|]. repeat (split; [reflexivity|]). split; [constructor|]. split; [intros x []|]. split; reflexivity.
    - destruct (simulate_event _ _ _ _ _ _ _ _ _ _ _ e) as [out|] eqn:B; [|discriminate]. cbn [rbind] in H. destruct out as [| |out].
      + destruct (IH _ _ H) as (l & rows & S & E1 & E2 & E3 & E4 & E5 & E6). cbn [dt_numbers dt_rows dt_active dt_in] in *. exists l, rows. cbn [map fst List.length]. split; [now constructor|]. rewrite E5, E6, map_app, <- app_assoc. repeat (split; [assumption|]). split; [reflexivity|lia].
      + destruct (IH _ _ H) as (l & rows & S & E1 & E2 & E3 & E4 & E5 & E6). cbn [dt_numbers dt_rows dt_active dt_in] in *. exists l, rows. cbn [map fst List.length]. split; [now constructor|]. rewrite E5, E6, map_app, <- app_assoc. repeat (split; [assumption|]). split; [reflexivity|lia].
      + destruct (rmap (store_row pmt_db sipm_db c) out) as [stored|] eqn:St; [|discriminate]. cbn [rbind] in H. cbv zeta in H.
        assert (F : Forall (fun r => nexus_evt r = di_event e /\ exists j, (0 <= j)%Z /\ evt_number r = (di_event e * max_subevt c + j)%Z) out).
        { unfold simulate_event, detsim_event in B. repeat (match type of B with
            | rbind ?x _ = Ok _ => let E := fresh "E" in destruct x eqn:E; cbn [rbind] in B; [|discriminate]
            | (if ?x then _ else _) = Ok _ => destruct x; [discriminate|]
            | (let '(_, _) := ?x in _) = Ok _ => destruct x
            end; cbv zeta beta in B). injection B as ->. eapply save_buffers_of. eassumption. }
        pose proof (stored_rows _ _ _ _ _ _ St F) as T. destruct (IH _ _ H) as (l & rows & S & E1 & E2 & E3 & E4 & E5 & E6). cbn [dt_numbers dt_rows dt_active dt_in] in *.
        destruct out as [|x out].
        * injection St as <-. rewrite app_nil_r in *. exists l, rows. cbn [map fst List.length]. split; [now constructor|]. rewrite E5, E6, map_app, <- app_assoc. repeat (split; [assumption|]). split; [reflexivity|lia].
        * exists (di_event e :: l), (stored ++ rows). cbn [map fst List.length]. split; [now constructor|]. rewrite E1, E2, E5, E6, (map_app fst), <- !app_assoc. repeat (split; [reflexivity|]).
          split; [apply Forall_app; split; [exact (trigger_more _ [di_event e] l _ T)|exact (trigger_after _ [di_event e] l _ E3)]|]. split; [|split; [reflexivity|lia]].
          rewrite map_app. intros y [<-|Hy]; apply in_or_app; [left|right; now apply E4]. destruct stored as [|r stored]; [apply rmap_nil in St; discriminate|]. inversion T as [|? ? [I _] _]; subst. destruct I as [->|[]]. now left.
  Qed.
  (** detsim: the same, for the events that have hits in the files *)
  Theorem C117_detsim mus b pw sw rate draw files o : city mus b pw sw rate draw files = Ok o ->
    (forall ev, In ev (dt_numbers o) -> exists f hits h, In f files /\ hf_hits f = Some hits /\ In h hits /\ fst h = ev) /\
    (exists mt, check_max_time mus (cf_max b) (cf_buffer b) = Ok mt /\ Forall (trigger_of (Qceiling (mt / cf_buffer b)) (dt_numbers o)) (dt_rows o)) /\ incl (dt_numbers o) (map br_nexus (dt_rows o)) /\
    subsequence (dt_numbers o) (map fst (dt_active o)) /\ List.length (dt_active o) = dt_in o.
  Proof.
    unfold detsim_run. destruct (check_max_time _ _ _) as [mt|] eqn:Mt; [|discriminate]. cbn [rbind]. intros R. destruct (detsim_events _ _ _ _ R) as (l & rows & S & E1 & E2 & E3 & E4 & E5 & E6). cbn [nothing_simulated dt_numbers dt_rows dt_active dt_in app map Nat.add] in *. rewrite E1, E2, E5.
    split; [|split; [exists mt; split; [reflexivity|exact E3]|split; [exact E4|split; [exact S|apply (f_equal (@List.length _)) in E5; rewrite !map_length in E5; now rewrite E5, E6]]]].
    intros ev Hev. apply (sub_in _ _ S) in Hev. unfold det_items in Hev. erewrite mapi_from_map with (h := fun x => fst (snd x)) in Hev; [|intros n [names [e hits]]; reflexivity].
    apply in_map_iff in Hev. destruct Hev as ([names [ev' hits]] & <- & Hi). cbn [fst snd]. apply in_flat_map in Hi. destruct Hi as (f & Hf & Hi). destruct (hf_hits f) as [hs|] eqn:Hh; [|destruct Hi]. apply in_map_iff in Hi. destruct Hi as ([e' h'] & Eq & Hi). injection Eq as _ -> _.
    unfold ReadModel.mc_groups in Hi. apply in_map_iff in Hi. destruct Hi as (e2 & Eq & Hi). injection Eq as -> _.
    assert (J : forall l, In ev' (ReadModel.sorted_events l) -> In ev' l). { clear. induction l as [|a l IH]; intros H; [exact H|]. cbn [ReadModel.sorted_events fold_right] in H. fold (ReadModel.sorted_events l) in H. enough (ev' = a \/ In ev' (ReadModel.sorted_events l)) by (destruct H0 as [->|H0]; [now left|right; now apply IH]). revert H. generalize (ReadModel.sorted_events l). clear. induction l as [|b l IH]; cbn [ReadModel.insert_z].
      - intros [->|[]]. now left.
      - destruct (a =? b)%Z; [intros H; now right|]. destruct (a <? b)%Z; [intros [->|H]; [now left|now right]|]. intros [->|H]; [right; now left|]. destruct (IH H); [now left|right; now right]. }
    apply J in Hi. apply in_map_iff in Hi. destruct Hi as (h & Eh & Hi). exists f, hs, h. auto.
  Qed.
End Detsim.
Print Assumptions C117_detsim.
Print Assumptions C117_buffy.
