(** C121 for buffy and detsim: what a run that fails or is stopped leaves in its file *)
From Coq Require Import String Qround.
From Verif Require ReadModel JobModel JobProofs SbinProps BfyProps.
From Verif Require Import Base Arrays PeaksModel BuffersModel DetsimModel S1Model DsimModel FrunModel BfyModel DetModel JobSimModel JobSim.
From Verif Require Import HaltBase HaltSimModel HaltSpec HaltSimSpec HaltProofs HaltStop HaltStop2.
Local Open Scope nat_scope.

Ltac s_end := cbn [st_first st_dark st_signal st_events st_map st_pmt st_sipm st_numbers st_in st_resp].
Lemma sim_comp a b c d e f g h i r a' b' c' d' e' f' g' h' i' r' t : sim_add a' b' c' d' e' f' g' h' i' r' (sim_add a b c d e f g h i r t) =
  sim_add (a ++ a') (b ++ b') (c ++ c') (d ++ d') (e ++ e') (f ++ f') (g ++ g') (h ++ h') (i' + i) (r' + r) t.
Proof. unfold sim_add. s_end. rewrite <- !app_assoc, <- !Nat.add_assoc. reflexivity. Qed.
Lemma sim_zero t : sim_add [] [] [] [] [] [] [] [] 0 0 t = t.
Proof. unfold sim_add. destruct t. s_end. rewrite !app_nil_r. reflexivity. Qed.

Section Saving.
  Variables pmt_db sipm_db : list nat.
  Lemma row_out c r t : outcome (write_row pmt_db sipm_db c r t) =
    rbind (store_row pmt_db sipm_db c r) (fun b => Ok (sim_add [] [] [] [(br_event b, br_time b)] [(br_event b, br_nexus b)] [br_pmt b] [br_sipm b] [] 0 0 t)).
  Proof.
    unfold write_row, store_row. rewrite bind_call. destruct (store_time _) as [z|]; [|reflexivity]. cbn [rbind]. rewrite !bind_put, bind_call, sim_comp. destruct (store_array _ _ (eng r)) as [p|]; [|reflexivity]. cbn [rbind].
    rewrite bind_put, bind_call, sim_comp. destruct (store_array _ _ (trk r)) as [s|]; [|reflexivity]. cbn [rbind br_event br_time br_nexus br_pmt br_sipm]. rewrite out_put, sim_comp. reflexivity.
  Qed.
  Lemma rows_out c rows : forall t, outcome (each rows (write_row pmt_db sipm_db c) t) = rbind (rmap (store_row pmt_db sipm_db c) rows) (fun bs =>
    Ok (sim_add [] [] [] (map (fun r => (br_event r, br_time r)) bs) (map (fun r => (br_event r, br_nexus r)) bs) (map br_pmt bs) (map br_sipm bs) [] 0 0 t)).
  Proof.
    induction rows as [|r rows IH]; intros t; cbn [each rmap]; [rewrite out_ret; cbn [rbind map]; now rewrite sim_zero|].
    rewrite bind_unit, row_out. destruct (store_row _ _ c r) as [b|]; [|reflexivity]. cbn [rbind]. rewrite IH. destruct (rmap _ rows) as [bs|]; [|reflexivity]. cbn [rbind map]. now rewrite sim_comp.
  Qed.
  Lemma rmap_len {A B} (f : A -> result B) l : forall m, rmap f l = Ok m -> List.length m = List.length l.
  Proof. induction l as [|a l IH]; intros m; cbn; [intros H; now injection H as <-|]. destruct (f a); [|discriminate]. cbn. destruct (rmap f l) as [m'|]; [|discriminate]. cbn. intros H. injection H as <-. cbn. now rewrite (IH m'). Qed.
  Lemma save_out c order nexus ts pb pm sb sm t : outcome (save_step pmt_db sipm_db c order nexus ts pb pm sb sm t) =
    rbind (save_buffers c order nexus ts pb pm sb sm) (fun out => rbind (rmap (store_row pmt_db sipm_db c) out) (fun bs =>
    let passed := match out with [] => false | _ => true end in
    Ok (sim_add [] [] [(nexus, passed)] (map (fun r => (br_event r, br_time r)) bs) (map (fun r => (br_event r, br_nexus r)) bs) (map br_pmt bs) (map br_sipm bs) (if passed then [nexus] else []) 0 0 t))).
  Proof.
    unfold save_step, save_buffers. rewrite bind_call. destruct (find_signal_start _ _ _) as [pulses|]; [|reflexivity]. cbn [rbind]. rewrite bind_put. destruct pulses as [|p ps]; [rewrite out_ret; reflexivity|].
    set (pulses := p :: ps). rewrite bind_call. destruct (trigger_times pulses _ _) as [times|] eqn:T; [|reflexivity]. cbn [rbind]. rewrite bind_call. destruct (position_signal _ pulses _ _ _ _) as [buffers|] eqn:B; [|reflexivity]. cbn [rbind].
    rewrite bind_call. destruct (rmap order buffers) as [ordered|] eqn:O; [|reflexivity]. cbn [rbind]. apply rmap_len in T, B, O. cbn in T, B. destruct times as [|t1 times]; [discriminate|]. destruct buffers as [|b1 buffers]; [discriminate|]. destruct ordered as [|[x y] ordered]; [discriminate|].
    assert (N : match write_buffers (max_subevt c) nexus (t1 :: times) ((x, y) :: ordered) with [] => false | _ => true end = true) by reflexivity. set (out := write_buffers _ _ _ _) in *. clearbody out. rewrite N.
    rewrite bind_unit, rows_out. destruct (rmap _ out) as [bs|]; [|reflexivity]. cbn [rbind]. rewrite out_put, !sim_comp. cbn [app Nat.add]. rewrite !app_nil_r. reflexivity.
  Qed.

  (** the first [k] triggers of the event are complete, and there is nothing else of it in Run and RD *)
  Definition at_row (max ev : Z) (o : sim_tables) (k : nat) (t : sim_tables) : Prop :=
    grown fst ev (st_first o) (st_first t) /\ grown fst ev (st_dark o) (st_dark t) /\ grown fst ev (st_signal o) (st_signal t) /\
    exists rows, st_events t = st_events o ++ map (fun r => (br_event r, br_time r)) rows /\ st_map t = st_map o ++ map (fun r => (br_event r, br_nexus r)) rows /\
      st_pmt t = st_pmt o ++ map br_pmt rows /\ st_sipm t = st_sipm o ++ map br_sipm rows /\ (forall r, In r rows -> br_nexus r = ev) /\
      map br_event rows = map (fun i => (ev * max + Z.of_nat i)%Z) (seq 0 k).
  Lemma at_more max ev o k t : at_row max ev o k t -> sim_more max ev o t.
  Proof.
    intros (A & B & C & rows & D & E & F & G & H & I). split; [exact A|]. split; [exact B|]. split; [exact C|]. exists rows, [], [], []. cbn [app]. rewrite ?app_nil_r. repeat split; auto; [intros x []|].
    exists k. cbn. rewrite ?app_nil_r. exact I.
  Qed.
  Lemma at_start max ev o : at_row max ev o 0 o.
  Proof. split; [apply grown_same|]. split; [apply grown_same|]. split; [apply grown_same|]. exists []. cbn. rewrite !app_nil_r. repeat split. intros r []. Qed.
  Lemma at_put max ev o k t a b c n i r : at_row max ev o k t -> (forall x, In x a -> fst x = ev) -> (forall x, In x b -> fst x = ev) -> (forall x, In x c -> fst x = ev) -> at_row max ev o k (sim_add a b c [] [] [] [] n i r t).
  Proof.
    intros (A & B & C & rows & D & E & F & G & H & I) Ha Hb Hc. unfold sim_add. split; [|split; [|split]]; s_end; [now apply grown_add|now apply grown_add|now apply grown_add|]. exists rows. rewrite ?app_nil_r. auto 10.
  Qed.
  Lemma seq_snoc k : seq 0 (S k) = seq 0 k ++ [k].
  Proof. replace (S k) with (k + 1) by lia. rewrite seq_app. reflexivity. Qed.
  Lemma row_visits max ev o k t0 c r : at_row max ev o k t0 -> evt_number r = (ev * max + Z.of_nat k)%Z -> nexus_evt r = ev ->
    (forall t, In t (visited (write_row pmt_db sipm_db c r) t0) -> sim_more max ev o t) /\ (forall t1, write_row pmt_db sipm_db c r t0 = (t1, Ok tt) -> at_row max ev o (S k) t1).
  Proof.
    intros M En Ex. pose proof (at_more _ _ _ _ _ M) as S0. destruct M as (A & B & C & rows & D & E & F & G & H & I).
    assert (K : forall z, map br_event rows ++ map fst [(evt_number r, z : Z)] = map (fun i => (ev * max + Z.of_nat i)%Z) (seq 0 (S k))) by (intros z; rewrite seq_snoc, map_app, I; cbn; now rewrite En).
    unfold write_row. split.
    - intros t V. apply in_call in V. destruct (store_time _) as [z|]; [|now subst]. 
      apply in_put in V. destruct V as [->|V]; [exact S0|].
      assert (S1 : sim_more max ev o (sim_add [] [] [] [(evt_number r, z)] [] [] [] [] 0 0 t0)).
      { unfold sim_add. split; [|split; [|split]]; s_end; [now rewrite app_nil_r|now rewrite app_nil_r|now rewrite app_nil_r|]. exists rows, [(evt_number r, z)], [], []. rewrite !app_nil_r, D, <- app_assoc. repeat split; cbn [List.length]; auto; try (intros x []; fail); exists (S k); apply K. }
      apply in_put in V. destruct V as [->|V]; [exact S1|]. rewrite sim_comp in V. cbn [app Nat.add] in V.
      assert (S2 : sim_more max ev o (sim_add [] [] [] [(evt_number r, z)] [(evt_number r, nexus_evt r)] [] [] [] 0 0 t0)).
      { unfold sim_add. split; [|split; [|split]]; s_end; [now rewrite app_nil_r|now rewrite app_nil_r|now rewrite app_nil_r|]. exists rows, [(evt_number r, z)], [(evt_number r, nexus_evt r)], []. rewrite !app_nil_r, D, E, <- !app_assoc. repeat split; cbn [List.length]; auto; try (intros x [<-|[]]; exact Ex); exists (S k); apply K. }
      apply in_call in V. destruct (store_array _ _ (eng r)) as [p|]; [|subst; exact S2]. apply in_put in V. destruct V as [->|V]; [exact S2|]. rewrite sim_comp in V. cbn [app Nat.add] in V.
      assert (S3 : sim_more max ev o (sim_add [] [] [] [(evt_number r, z)] [(evt_number r, nexus_evt r)] [p] [] [] 0 0 t0)).
      { unfold sim_add. split; [|split; [|split]]; s_end; [now rewrite app_nil_r|now rewrite app_nil_r|now rewrite app_nil_r|]. exists rows, [(evt_number r, z)], [(evt_number r, nexus_evt r)], [p]. rewrite !app_nil_r, D, E, F, <- !app_assoc. repeat split; cbn [List.length]; auto; try (intros x [<-|[]]; exact Ex); exists (S k); apply K. }
      apply in_call in V. destruct (store_array _ _ (trk r)) as [s|]; [|subst; exact S3]. apply in_put1 in V. destruct V as [->| ->]; [exact S3|]. rewrite sim_comp. cbn [app Nat.add].
      unfold sim_add. split; [|split; [|split]]; s_end; [now rewrite app_nil_r|now rewrite app_nil_r|now rewrite app_nil_r|].
      exists (rows ++ [ {| br_event := evt_number r; br_time := z; br_nexus := nexus_evt r; br_pmt := p; br_sipm := s |} ]), [], [], []. rewrite !map_app, !app_nil_r, D, E, F, G, <- !app_assoc. cbn [map br_event br_time br_nexus br_pmt br_sipm].
      repeat split; cbn [List.length]; auto; try (intros x []; fail); [intros x Hx; apply in_app_or in Hx; destruct Hx as [Hx|[<-|[]]]; [auto|exact Ex]|exists (S k); exact (K z)].
    - intros t1 V. rewrite bind_call in V. destruct (store_time _) as [z|]; [|discriminate]. rewrite !bind_put, bind_call, sim_comp in V. cbn [app Nat.add] in V. destruct (store_array _ _ (eng r)) as [p|]; [|discriminate].
      rewrite bind_put, bind_call, sim_comp in V. cbn [app Nat.add] in V. destruct (store_array _ _ (trk r)) as [s|]; [|discriminate]. cbn [put exec] in V. injection V as <-. rewrite sim_comp. cbn [app Nat.add].
      unfold sim_add. split; [|split; [|split]]; s_end; [now rewrite app_nil_r|now rewrite app_nil_r|now rewrite app_nil_r|].
      exists (rows ++ [ {| br_event := evt_number r; br_time := z; br_nexus := nexus_evt r; br_pmt := p; br_sipm := s |} ]). rewrite !map_app, D, E, F, G, <- !app_assoc. cbn [map br_event br_time br_nexus br_pmt br_sipm].
      repeat split; auto; [intros x Hx; apply in_app_or in Hx; destruct Hx as [Hx|[<-|[]]]; [auto|exact Ex]|exact (K z)].
  Qed.
  Lemma rows_visits max ev o c times : forall events k t0, at_row max ev o k t0 ->
    (forall t, In t (visited (each (write_from (Z.of_nat k) (ev * max) ev times events) (write_row pmt_db sipm_db c)) t0) -> sim_more max ev o t) /\
    (forall t1, each (write_from (Z.of_nat k) (ev * max) ev times events) (write_row pmt_db sipm_db c) t0 = (t1, Ok tt) -> exists k', at_row max ev o k' t1).
  Proof.
    induction times as [|x times IH]; intros [|[a b] events] k t0 M; cbn [write_from each]; try (split; [intros t V; apply in_ret in V; subst; eapply at_more; exact M|intros t1 V; injection V as <-; eauto]).
    match goal with |- context [write_row _ _ c ?r] => destruct (row_visits max ev o k t0 c r M eq_refl eq_refl) as [V1 V2] end. replace (Z.of_nat k + 1)%Z with (Z.of_nat (S k)) by lia. split.
    - intros t V. apply (part _ _ _ _ _ V1) in V. destruct V as [V|(t1 & [] & _ & E & V)]; [exact V|]. apply (proj1 (IH events (S k) t1 (V2 t1 E))) in V. exact V.
    - intros t1 V. rewrite exec_bind in V. match type of V with context [match ?x with _ => _ end] => destruct x as [t2 [[]|e]] eqn:E; [|discriminate] end. exact (proj2 (IH events (S k) t2 (V2 t2 eq_refl)) t1 V).
  Qed.
  Lemma save_visits c order ev ts pb pm sb sm o t0 t : at_row (max_subevt c) ev o 0 t0 -> In t (visited (save_step pmt_db sipm_db c order ev ts pb pm sb sm) t0) -> sim_more (max_subevt c) ev o t.
  Proof.
    intros M V. unfold save_step in V. apply in_call in V. destruct (find_signal_start _ _ _) as [pulses|]; [|subst; eapply at_more; exact M]. apply in_put in V. destruct V as [->|V]; [eapply at_more; exact M|].
    match type of V with In _ (visited _ ?u) => assert (M1 : at_row (max_subevt c) ev o 0 u) by (apply at_put; [exact M|apply no_rows|apply no_rows|apply one_row; reflexivity]); set (t1 := u) in * end. clearbody t1. clear M.
    destruct pulses as [|p ps]; [apply in_ret in V; subst; eapply at_more; exact M1|]. set (pulses := p :: ps) in *. apply in_call in V. destruct (trigger_times _ _ _) as [times|]; [|subst; eapply at_more; exact M1].
    apply in_call in V. destruct (position_signal _ _ _ _ _ _) as [buffers|]; [|subst; eapply at_more; exact M1]. apply in_call in V. destruct (rmap order buffers) as [ordered|]; [|subst; eapply at_more; exact M1].
    unfold write_buffers, ic_event_number_base in V. change 0%Z with (Z.of_nat 0) in V. destruct (rows_visits (max_subevt c) ev o c times ordered 0 t1 M1) as [V1 V2].
    apply (part _ _ _ _ _ V1) in V. destruct V as [V|(t2 & [] & _ & E & V)]; [exact V|]. destruct (V2 t2 E) as (k' & M2). apply in_put1 in V. destruct V as [->| ->]; [eapply at_more; exact M2|].
    eapply at_more. apply at_put; [exact M2|apply no_rows|apply no_rows|apply no_rows].
  Qed.

  (** ---- buffy ---- *)
  Lemma bfy_one c rate draw it o : outcome (buffy_step pmt_db sipm_db c rate draw it (buffy_view o)) = rbind (buffy_all pmt_db sipm_db c rate draw [it] o) (fun o => Ok (buffy_view o)).
  Proof.
    destruct it as [ev [p s]]. unfold buffy_step. cbn [buffy_all]. rewrite bind_look, bind_put. destruct (_ || _) eqn:Em.
    - rewrite out_put, sim_comp. cbn [rbind]. unfold sim_add, buffy_view. s_end. cbn [bt_detected bt_signal bt_rows bt_numbers bt_in bt_resp app Nat.add]. rewrite !app_nil_r. reflexivity.
    - rewrite bind_put, sim_comp, bind_call. destruct (rmap to_simrow p) as [p'|] eqn:Ep; [|reflexivity]. cbn [rbind]. rewrite bind_call. destruct (rmap to_simrow s) as [s'|] eqn:Es; [|reflexivity]. cbn [rbind]. rewrite bind_call.
      unfold buffy_event. cbn [sim_pmts sim_sipms sim_evt sim_time]. apply rmap_len in Ep, Es. destruct p as [|p0 p]; [discriminate|]. destruct s as [|s0 s]; [discriminate|]. destruct p' as [|p1 p']; [discriminate|]. destruct s' as [|s1 s']; [discriminate|].
      destruct (first_and_last_times _ _ _ _) as [[tmin tmax]|]; [|reflexivity]. cbn [rbind fst snd]. destruct (bin_sensors (p1 :: p') _ _ _ _) as [pb pm]. destruct (bin_sensors (s1 :: s') _ _ _ _) as [sb sm]. rewrite save_out.
      change (st_in (buffy_view o)) with (bt_in o). destruct (save_buffers _ _ _ _ _ _ _ _) as [out|]; [|reflexivity]. cbn [rbind]. destruct (rmap _ out) as [bs|]; [|reflexivity]. cbn [rbind]. cbv zeta.
      rewrite sim_comp. unfold sim_add, buffy_view. s_end. cbn [bt_detected bt_signal bt_rows bt_numbers bt_in bt_resp app Nat.add]. rewrite !map_app. reflexivity.
  Qed.
  Lemma bfy_visits c rate draw it o t : In t (visited (buffy_step pmt_db sipm_db c rate draw it) (buffy_view o)) -> sim_more (max_subevt c) (fst it) (buffy_view o) t.
  Proof.
    destruct it as [ev [p s]]. cbn [fst]. unfold buffy_step. intros V. cbn [look bind visited] in V. set (o' := buffy_view o) in *. clearbody o'. clear o. pose proof (at_start (max_subevt c) ev o') as M.
    apply in_put in V. destruct V as [->|V]; [eapply at_more; exact M|].
    match type of V with In _ (visited _ ?u) => assert (M1 : at_row (max_subevt c) ev o' 0 u) by (apply at_put; [exact M|apply no_rows|apply no_rows|apply no_rows]); set (t1 := u) in * end. clearbody t1. clear M.
    destruct (_ || _).
    - apply in_put1 in V. destruct V as [->| ->]; [eapply at_more; exact M1|]. eapply at_more. apply at_put; [exact M1|apply one_row; reflexivity|apply no_rows|apply no_rows].
    - apply in_put in V. destruct V as [->|V]; [eapply at_more; exact M1|].
      match type of V with In _ (visited _ ?u) => assert (M2 : at_row (max_subevt c) ev o' 0 u) by (apply at_put; [exact M1|apply one_row; reflexivity|apply no_rows|apply no_rows]); set (t2 := u) in * end. clearbody t2. clear M1 t1.
      apply in_call in V. destruct (rmap to_simrow p) as [p'|]; [|subst; eapply at_more; exact M2]. apply in_call in V. destruct (rmap to_simrow s) as [s'|]; [|subst; eapply at_more; exact M2].
      apply in_call in V. destruct (first_and_last_times _ _ _ _) as [[tmin tmax]|]; [|subst; eapply at_more; exact M2]. cbn [fst snd] in V. destruct (bin_sensors p' _ _ _ _) as [pb pm]. destruct (bin_sensors s' _ _ _ _) as [sb sm]. eapply save_visits; eassumption.
  Qed.

  (** ---- detsim ---- *)
  Variables (sqrtQ emitted : Q -> Q) (s1_lt : list Q -> list Q -> list Q -> result (list (list Q))) (s1_sensors : nat) (p : physics) (lt_pmt lt_sipm : light_table) (ACTIVE BUFFER : nat) (rn : nat -> det_draws).
  Lemma det_one c it o : outcome (detsim_step pmt_db sipm_db sqrtQ emitted s1_lt s1_sensors p lt_pmt lt_sipm ACTIVE BUFFER rn c it (detsim_view o)) =
    rbind (detsim_all sqrtQ emitted s1_lt s1_sensors p lt_pmt lt_sipm ACTIVE BUFFER pmt_db sipm_db rn c [it] o) (fun o => Ok (detsim_view o)).
  Proof.
    unfold detsim_step. cbn [detsim_all]. unfold simulate_event, detsim_event. rewrite bind_look. change (st_in (detsim_view o)) with (dt_in o). cbv zeta. rewrite bind_put, bind_call.
    destruct (filter_hits_after_max_time _ _) as [intime|]; [|reflexivity]. cbn [rbind]. rewrite bind_call. destruct (hits_selector _ _ false _ _) as [s1_hits|]; [|reflexivity]. cbn [rbind]. rewrite bind_call. destruct (hits_selector _ _ true _ _) as [active|]; [|reflexivity]. cbn [rbind].
    destruct (negb (existsb _ active)).
    { rewrite out_put, sim_comp. cbn [rbind]. unfold sim_add, detsim_view. s_end. cbn [dt_active dt_dark dt_signal dt_rows dt_numbers dt_in app Nat.add]. rewrite !app_nil_r. reflexivity. }
    rewrite bind_put, sim_comp, bind_call. destruct (simulate_ielectrons _ _ _ _ _ _ _ _ _ _ _ _ _ _ _ _) as [simulated|]; [|reflexivity]. cbn [rbind]. destruct (_ <=? 0)%Z.
    { rewrite out_put, sim_comp. cbn [rbind]. unfold sim_add, detsim_view. s_end. cbn [dt_active dt_dark dt_signal dt_rows dt_numbers dt_in app Nat.add]. rewrite !app_nil_r. reflexivity. }
    rewrite bind_put, sim_comp, bind_call. destruct (get_buffer_times_and_length _ _ _ _ _ _ _) as [[tmin len]|]; [|reflexivity]. cbn [rbind fst snd]. rewrite bind_call. destruct (create_s1_waveforms _ _ _ _ _ _ _ _ _ _) as [s1_pmt|]; [|reflexivity]. cbn [rbind].
    rewrite bind_call. destruct (create_s2_waveform (dd_s2 _) _ _ _ _ _ _) as [s2_pmt|]; [|reflexivity]. cbn [rbind]. rewrite bind_call. destruct (add_arrays _ _) as [pmt_wfs|]; [|reflexivity]. cbn [rbind].
    rewrite bind_call. destruct (create_s2_waveform (dd_si _) _ _ _ _ _ _) as [sipm_wfs|]; [|reflexivity]. cbn [rbind]. rewrite save_out. destruct (save_buffers _ _ _ _ _ _ _ _) as [out|]; [|reflexivity]. cbn [rbind]. destruct (rmap _ out) as [bs|]; [|reflexivity]. cbn [rbind]. cbv zeta.
    rewrite sim_comp. unfold sim_add, detsim_view. s_end. cbn [dt_active dt_dark dt_signal dt_rows dt_numbers dt_in app Nat.add]. rewrite !map_app. reflexivity.
  Qed.
  Lemma det_visits c it o t : In t (visited (detsim_step pmt_db sipm_db sqrtQ emitted s1_lt s1_sensors p lt_pmt lt_sipm ACTIVE BUFFER rn c it) (detsim_view o)) -> sim_more (max_subevt c) (di_event it) (detsim_view o) t.
  Proof.
    unfold detsim_step. intros V. cbn [look bind visited] in V. set (o' := detsim_view o) in *. clearbody o'. clear o. set (ev := di_event it) in *. pose proof (at_start (max_subevt c) ev o') as M. cbv zeta in V.
    apply in_put in V. destruct V as [->|V]; [eapply at_more; exact M|].
    match type of V with In _ (visited _ ?u) => assert (M1 : at_row (max_subevt c) ev o' 0 u) by (apply at_put; [exact M|apply no_rows|apply no_rows|apply no_rows]); set (t1 := u) in * end. clearbody t1. clear M.
    do 3 (apply in_call in V; match type of V with match ?x with _ => _ end => destruct x; [|subst; eapply at_more; exact M1] end). destruct (negb _).
    - apply in_put1 in V. destruct V as [->| ->]; [eapply at_more; exact M1|]. eapply at_more. apply at_put; [exact M1|apply one_row; reflexivity|apply no_rows|apply no_rows].
    - apply in_put in V. destruct V as [->|V]; [eapply at_more; exact M1|].
      match type of V with In _ (visited _ ?u) => assert (M2 : at_row (max_subevt c) ev o' 0 u) by (apply at_put; [exact M1|apply one_row; reflexivity|apply no_rows|apply no_rows]); set (t2 := u) in * end. clearbody t2. clear M1 t1.
      apply in_call in V. match type of V with match ?x with _ => _ end => destruct x; [|subst; eapply at_more; exact M2] end. destruct (_ <=? 0)%Z.
      + apply in_put1 in V. destruct V as [->| ->]; [eapply at_more; exact M2|]. eapply at_more. apply at_put; [exact M2|apply no_rows|apply one_row; reflexivity|apply no_rows].
      + apply in_put in V. destruct V as [->|V]; [eapply at_more; exact M2|].
        match type of V with In _ (visited _ ?u) => assert (M1 : at_row (max_subevt c) ev o' 0 u) by (apply at_put; [exact M2|apply no_rows|apply one_row; reflexivity|apply no_rows]); set (t1 := u) in * end. clearbody t1. clear M2 t2.
        do 5 (apply in_call in V; match type of V with match ?x with _ => _ end => destruct x; [|subst; eapply at_more; exact M1] end). eapply save_visits; eassumption.
  Qed.
End Saving.

(** buffy, when there are sampling periods: [sensors] is the input *)
Theorem C121_buffy : forall float unit is_pmt_name pmt_db sipm_db mus b rate draw files mt pw sw, check_max_time mus (cf_max b) (cf_buffer b) = Ok mt ->
  SbinModel.pmt_and_sipm_bin_width_safe float unit (map (fun f => option_map (pair false) (nf_conf f)) files) = Ok (pw, sw) ->
  let c := readout b mt pw sw in let source := ReadModel.over_files (sensors_of_nfile float unit is_pmt_name pmt_db) files in
  let left := leave (buffy_step pmt_db sipm_db c rate draw) source (buffy_view nothing_read) in
  (forall t e, left = (t, Some e) -> buffy_run float unit is_pmt_name pmt_db sipm_db mus b rate draw files = Err e /\
     left_by source (first_events buffy_view nothing_read (fun k => made (buffy_range float unit is_pmt_name pmt_db sipm_db (0, Some k) mus b rate draw files))) (fun it => sim_more (max_subevt c) (fst it)) t e) /\
  (forall t, left = (t, None) <-> exists o, buffy_run float unit is_pmt_name pmt_db sipm_db mus b rate draw files = Ok (Some o) /\ t = buffy_view o).
Proof.
  intros float unit is_pmt_name pmt_db sipm_db mus b rate draw files mt pw sw H1 H2 c source left.
  assert (W : forall src : list (Z * (list ReadModel.stime * list ReadModel.stime)) * option pyexc, made (let (items, e) := src in rbind (B := option bfy_tables) (buffy_all pmt_db sipm_db c rate draw items nothing_read) (fun o => match e with None => Ok (Some o) | Some e => Err e end)) = whole (buffy_all pmt_db sipm_db c rate draw) nothing_read src).
  { intros [items e]. unfold whole. cbn [fst snd]. destruct (buffy_all _ _ _ _ _ _ _); [|reflexivity]. now destruct e. }
  assert (H : (forall t e, left = (t, Some e) -> made (buffy_run float unit is_pmt_name pmt_db sipm_db mus b rate draw files) = Err e /\
     left_by source (first_events buffy_view nothing_read (fun k => made (buffy_range float unit is_pmt_name pmt_db sipm_db (0, Some k) mus b rate draw files))) (fun it => sim_more (max_subevt c) (fst it)) t e) /\
    (forall t, left = (t, None) <-> exists o, made (buffy_run float unit is_pmt_name pmt_db sipm_db mus b rate draw files) = Ok o /\ t = buffy_view o)).
  { apply (city_halts (buffy_all pmt_db sipm_db c rate draw) buffy_view (buffy_step pmt_db sipm_db c rate draw)).
    - apply bfy_app.
    - reflexivity.
    - apply bfy_one.
    - intros it o t e E. apply (bfy_visits pmt_db sipm_db c rate draw it o t). pose proof (last_visited (buffy_step pmt_db sipm_db c rate draw it) (buffy_view o)) as L. rewrite E in L. exact L.
    - unfold buffy_run. rewrite H1. cbn [rbind]. rewrite H2. apply W.
    - intros k. unfold buffy_range. rewrite H1. cbn [rbind]. rewrite H2. apply W. }
  destruct H as [A B].
  assert (N : buffy_run float unit is_pmt_name pmt_db sipm_db mus b rate draw files <> Ok None).
  { unfold buffy_run. rewrite H1. cbn [rbind]. rewrite H2. fold c. fold source. destruct source as [items e]. destruct (buffy_all _ _ _ _ _ _ _); [|discriminate]. cbn. destruct e; discriminate. }
  split.
    + intros t e L. destruct (A t e L) as [A1 A2]. split; [|exact A2]. destruct (buffy_run _ _ _ _ _ _ _ _ _ _) as [[o|]|]; cbn in A1; [discriminate|destruct (N eq_refl)|congruence].
    + intros t. rewrite (B t). split; intros (o & E & ->); exists o; (split; [|reflexivity]).
      * destruct (buffy_run _ _ _ _ _ _ _ _ _ _) as [[o'|]|]; cbn in E; [congruence|destruct (N eq_refl)|discriminate].
      * now rewrite E.
Qed.
Print Assumptions C121_buffy.
Theorem C121_buffy_stopped : forall float unit is_pmt_name pmt_db sipm_db mus b rate draw files mt pw sw, check_max_time mus (cf_max b) (cf_buffer b) = Ok mt ->
  SbinModel.pmt_and_sipm_bin_width_safe float unit (map (fun f => option_map (pair false) (nf_conf f)) files) = Ok (pw, sw) ->
  let c := readout b mt pw sw in let source := ReadModel.over_files (sensors_of_nfile float unit is_pmt_name pmt_db) files in
  forall t, In t (stopped (buffy_step pmt_db sipm_db c rate draw) source (buffy_view nothing_read)) ->
    stopped_by source (first_events buffy_view nothing_read (fun k => made (buffy_range float unit is_pmt_name pmt_db sipm_db (0, Some k) mus b rate draw files))) (fun it => sim_more (max_subevt c) (fst it)) (fun _ _ => False) t.
Proof.
  intros float unit is_pmt_name pmt_db sipm_db mus b rate draw files mt pw sw H1 H2 c source.
  apply (city_stops (buffy_all pmt_db sipm_db c rate draw) buffy_view).
  - apply bfy_app.
  - reflexivity.
  - apply bfy_one.
  - intros it o t V. left. now apply bfy_visits with (1 := V).
  - intros k. unfold buffy_range. rewrite H1. cbn [rbind]. rewrite H2. fold c. fold source. destruct (JobModel.ranged _ source) as [items e]. unfold whole. cbn [fst snd]. destruct (buffy_all _ _ _ _ _ _ _); [|reflexivity]. now destruct e.
Qed.
Print Assumptions C121_buffy_stopped.
Theorem C121_detsim : forall sqrtQ emitted s1_lt s1_sensors p lt_pmt lt_sipm ACTIVE BUFFER pmt_db sipm_db rn mus b pw sw rate draw files mt, check_max_time mus (cf_max b) (cf_buffer b) = Ok mt ->
  let c := readout b mt pw sw in let source := (det_items rate draw files, None) in
  let left := leave (detsim_step pmt_db sipm_db sqrtQ emitted s1_lt s1_sensors p lt_pmt lt_sipm ACTIVE BUFFER rn c) source (detsim_view nothing_simulated) in
  (forall t e, left = (t, Some e) -> detsim_run sqrtQ emitted s1_lt s1_sensors p lt_pmt lt_sipm ACTIVE BUFFER pmt_db sipm_db rn mus b pw sw rate draw files = Err e /\
     left_by source (first_events detsim_view nothing_simulated (fun k => detsim_range sqrtQ emitted s1_lt s1_sensors p lt_pmt lt_sipm ACTIVE BUFFER pmt_db sipm_db rn (0, Some k) mus b pw sw rate draw files))
       (fun it => sim_more (max_subevt c) (di_event it)) t e) /\
  (forall t, left = (t, None) <-> exists o, detsim_run sqrtQ emitted s1_lt s1_sensors p lt_pmt lt_sipm ACTIVE BUFFER pmt_db sipm_db rn mus b pw sw rate draw files = Ok o /\ t = detsim_view o).
Proof.
  intros sqrtQ emitted s1_lt s1_sensors p lt_pmt lt_sipm ACTIVE BUFFER pmt_db sipm_db rn mus b pw sw rate draw files mt H1 c source left.
  set (run := detsim_all sqrtQ emitted s1_lt s1_sensors p lt_pmt lt_sipm ACTIVE BUFFER pmt_db sipm_db rn c).
  apply (city_halts run detsim_view (detsim_step pmt_db sipm_db sqrtQ emitted s1_lt s1_sensors p lt_pmt lt_sipm ACTIVE BUFFER rn c)).
  - apply det_app.
  - reflexivity.
  - apply det_one.
  - intros it o t e E. eapply det_visits. pose proof (last_visited (detsim_step pmt_db sipm_db sqrtQ emitted s1_lt s1_sensors p lt_pmt lt_sipm ACTIVE BUFFER rn c it) (detsim_view o)) as L. rewrite E in L. exact L.
  - unfold detsim_run, whole. rewrite H1. cbn [rbind fst snd source]. fold c. fold run. destruct (run _ _); reflexivity.
  - intros k. unfold detsim_range. rewrite H1. cbn [rbind]. fold c. apply whole_eq.
Qed.
Print Assumptions C121_detsim.
Theorem C121_detsim_stopped : forall sqrtQ emitted s1_lt s1_sensors p lt_pmt lt_sipm ACTIVE BUFFER pmt_db sipm_db rn mus b pw sw rate draw files mt, check_max_time mus (cf_max b) (cf_buffer b) = Ok mt ->
  let c := readout b mt pw sw in let source := (det_items rate draw files, None) in
  forall t, In t (stopped (detsim_step pmt_db sipm_db sqrtQ emitted s1_lt s1_sensors p lt_pmt lt_sipm ACTIVE BUFFER rn c) source (detsim_view nothing_simulated)) ->
    stopped_by source (first_events detsim_view nothing_simulated (fun k => detsim_range sqrtQ emitted s1_lt s1_sensors p lt_pmt lt_sipm ACTIVE BUFFER pmt_db sipm_db rn (0, Some k) mus b pw sw rate draw files))
      (fun it => sim_more (max_subevt c) (di_event it)) (fun _ _ => False) t.
Proof.
  intros sqrtQ emitted s1_lt s1_sensors p lt_pmt lt_sipm ACTIVE BUFFER pmt_db sipm_db rn mus b pw sw rate draw files mt H1 c source.
  apply (city_stops (detsim_all sqrtQ emitted s1_lt s1_sensors p lt_pmt lt_sipm ACTIVE BUFFER pmt_db sipm_db rn c) detsim_view).
  - apply det_app.
  - reflexivity.
  - apply det_one.
  - intros it o t V. left. eapply det_visits. exact V.
  - intros k. unfold detsim_range. rewrite H1. cbn [rbind]. fold c. apply whole_eq.
Qed.
Print Assumptions C121_detsim_stopped.

(** the file of the example of C114, whose first event has two triggers: the run can be stopped when the second one has its row in Run/events and nothing more *)
Example C121_sim_ex : check_max_time 1000 (cf_max BfyProps.bfy_conf) (cf_buffer BfyProps.bfy_conf) = Ok 10000%Q /\
  SbinModel.pmt_and_sipm_bin_width_safe SbinProps.ex_float SbinProps.ex_unit (map (fun f => option_map (pair false) (nf_conf f)) [BfyProps.bfy_file]) = Ok (100, 1000)%Q /\
  let states := stopped (buffy_step [0; 2] [N.to_nat 1000; N.to_nat 1001] (readout BfyProps.bfy_conf 10000 100 1000) (1 # 100000) (fun _ => 0%Q))
    (ReadModel.over_files (sensors_of_nfile SbinProps.ex_float SbinProps.ex_unit BfyProps.bfy_name [0; 2]) [BfyProps.bfy_file]) (buffy_view nothing_read) in
  map (fun t => (st_events t, st_map t, List.length (st_pmt t), List.length (st_sipm t))) (firstn 3 (skipn 7 states)) =
    [([(28, 701200)], [(28, 7)], 1%nat, 1%nat); ([(28, 701200); (29, 706000)], [(28, 7)], 1%nat, 1%nat); ([(28, 701200); (29, 706000)], [(28, 7); (29, 7)], 1%nat, 1%nat)]%Z.
Proof. split; [vm_compute; reflexivity|]. split; [vm_compute; reflexivity|]. vm_compute. reflexivity. Qed.
