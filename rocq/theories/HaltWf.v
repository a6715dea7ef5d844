(** C121: what a run that fails leaves in its file, for the cities that read waveforms *)
From Coq Require Import String.
From Verif Require Import Base ConfigModel TablesModel PeaksModel BuffersModel.
From Verif Require ReadModel.
From Verif Require Import PmapioModel CalibModel IreneModel NoiseModel HypaModel FeeModel TrigModel DioModel PreadModel FrunModel HrunModel IsiModel JobModel.
From Verif Require Import JobProofs.
From Verif Require Import HaltBase HaltWfModel HaltSpec HaltWfSpec HaltProofs.
Local Open Scope nat_scope.

(** ---- the writer of PMaps ---- *)
Lemma pm_same n t : pm_grown n t t.
Proof. split; [|split; [|split; [|split]]]; apply grown_same. Qed.
Lemma grown_trans {A} (key : A -> Z) n a b c : grown key n a b -> grown key n b c -> grown key n a c.
Proof. intros (x & -> & Hx) (y & -> & Hy). exists (x ++ y). split; [symmetry; apply app_assoc|]. intros r Hr. apply in_app_or in Hr. destruct Hr; auto. Qed.
Lemma pm_trans n a b c : pm_grown n a b -> pm_grown n b c -> pm_grown n a c.
Proof. intros (A1 & A2 & A3 & A4 & A5) (B1 & B2 & B3 & B4 & B5). split; [|split; [|split; [|split]]]; eapply grown_trans; eassumption. Qed.
Lemma pm_rows n a b c d e t : (forall r, In r a -> s_event r = n) -> (forall r, In r b -> s_event r = n) -> (forall r, In r c -> r_event r = n) -> (forall r, In r d -> r_event r = n) -> (forall r, In r e -> r_event r = n) ->
  pm_grown n t (tables_add a b c d e t).
Proof. intros. split; [|split; [|split; [|split]]]; apply grown_rows; assumption. Qed.
Lemma in_none {A} (P : A -> Prop) : forall r, In r [] -> P r. Proof. intros r []. Qed.
Lemma in_one {A} (P : A -> Prop) a : P a -> forall r, In r [a] -> P r. Proof. intros H r [<-|[]]. exact H. Qed.

Section Pm.
  Variable f32 : Q -> Q.
  Lemma sum_rows_eq p n ev : PmapioModel.sum_rows f32 p n ev = rmap (one_sum f32 p n ev) (seq 0 (List.length (p_times p))).
  Proof. reflexivity. Qed.
  Lemma sensor_rows_eq r n ev : PmapioModel.sensor_rows f32 r n ev = rbind (rmap (one_sensor f32 r n ev) (r_ids r)) (fun l => Ok (List.concat l)).
  Proof. reflexivity. Qed.
  Lemma one_sum_event p n ev i r : one_sum f32 p n ev i = Ok r -> s_event r = ev.
  Proof. unfold one_sum. destruct (nth_error _ _); [|discriminate]. destruct (nth_error _ _); [|discriminate]. destruct (nth_error _ _); [|discriminate]. intros H. injection H as <-. reflexivity. Qed.
  Lemma one_sensor_event r n ev id rs : one_sensor f32 r n ev id = Ok rs -> forall x, In x rs -> r_event x = ev.
  Proof. unfold one_sensor. destruct (waveform r id); [|discriminate]. intros H. injection H as <-. intros x Hx. apply in_map_iff in Hx. destruct Hx as (y & <- & _). reflexivity. Qed.
  Ltac t_end := unfold tables_add; cbn [t_s1 t_s2 t_si t_s1pmt t_s2pmt]; rewrite ?app_nil_r, <- ?app_assoc; try reflexivity.
  Lemma t_nil t : tables_add [] [] [] [] [] t = t. Proof. t_end. destruct t; reflexivity. Qed.
  Lemma s1s_link l : forall n ev t, outcome (write_s1s f32 l n ev t) = store_s1s f32 t l n ev.
  Proof.
    induction l as [|p l IH]; intros n ev t; cbn [write_s1s store_s1s]; [reflexivity|].
    rewrite bind_unit, (each_rows (one_sum f32 p n ev) _ (fun rs => tables_add rs [] [] [] [])) by (intros; t_end; destruct t0; reflexivity). rewrite sum_rows_eq.
    destruct (rmap _ (seq _ _)) as [a|]; [|reflexivity]. cbn [rbind]. rewrite bind_unit.
    rewrite (each_rows (one_sensor f32 (p_pmts p) n ev) _ (fun rs => tables_add [] [] [] (List.concat rs) [])) by (intros; t_end; destruct t0; reflexivity). rewrite sensor_rows_eq.
    destruct (rmap _ (r_ids _)) as [b|]; [|reflexivity]. cbn [rbind]. rewrite IH. f_equal. t_end.
  Qed.
  Lemma s2s_link l : forall n ev t, outcome (write_s2s f32 l n ev t) = store_s2s f32 t l n ev.
  Proof.
    induction l as [|p l IH]; intros n ev t; cbn [write_s2s store_s2s]; [reflexivity|].
    rewrite bind_unit, (each_rows (one_sum f32 p n ev) _ (fun rs => tables_add [] rs [] [] [])) by (intros; t_end; destruct t0; reflexivity). rewrite sum_rows_eq.
    destruct (rmap _ (seq _ _)) as [a|]; [|reflexivity]. cbn [rbind]. rewrite bind_unit.
    rewrite (each_rows (one_sensor f32 (p_pmts p) n ev) _ (fun rs => tables_add [] [] [] [] (List.concat rs))) by (intros; t_end; destruct t0; reflexivity). rewrite sensor_rows_eq.
    destruct (rmap _ (r_ids (p_pmts p))) as [b|]; [|reflexivity]. cbn [rbind]. rewrite bind_unit.
    rewrite (each_rows (one_sensor f32 (p_sipms p) n ev) _ (fun rs => tables_add [] [] (List.concat rs) [] [])) by (intros; t_end; destruct t0; reflexivity). rewrite sensor_rows_eq.
    destruct (rmap _ (r_ids _)) as [c|]; [|reflexivity]. cbn [rbind]. rewrite IH. f_equal. t_end.
  Qed.
  Lemma pmap_link ev pm t : outcome (write_pmap f32 ev pm t) = store_pmap f32 t ev pm.
  Proof. unfold write_pmap, store_pmap. rewrite bind_unit, s1s_link. destruct (store_s1s _ _ _ _ _); [|reflexivity]. cbn [rbind]. apply s2s_link. Qed.

  Lemma each_grown {A R} (f : A -> result R) (add : R -> pm_tables -> pm_tables) n : (forall a r t, f a = Ok r -> pm_grown n t (add r t)) ->
    forall l t u x, each l (fun a => r <- call (f a) ;; put (add r)) t = (u, x) -> pm_grown n t u.
  Proof. intros H. apply each_rows_left; [apply pm_same|]. intros a r t u F G. eapply pm_trans; [apply (H _ _ _ F)|exact G]. Qed.
  Lemma bind_grown (p : prog pm_tables unit) (q : unit -> prog pm_tables unit) n : (forall t u x, p t = (u, x) -> pm_grown n t u) -> (forall t u x, q tt t = (u, x) -> pm_grown n t u) ->
    forall t u x, bind p q t = (u, x) -> pm_grown n t u.
  Proof.
    intros P R t u x. rewrite exec_bind. destruct (p t) as [t1 [[]|e]] eqn:E; intros H; [|injection H as <- <-; eapply P; exact E]. eapply pm_trans; [eapply P; exact E|eapply R; exact H].
  Qed.
  Lemma pmap_grown ev pm : forall t u x, write_pmap f32 ev pm t = (u, x) -> pm_grown ev t u.
  Proof.
    assert (S1 : forall p n i r t, one_sum f32 p n ev i = Ok r -> pm_grown ev t (tables_add [r] [] [] [] [] t)) by (intros; apply pm_rows; try (apply in_none); apply in_one; eapply one_sum_event; eassumption).
    assert (S2 : forall p n i r t, one_sum f32 p n ev i = Ok r -> pm_grown ev t (tables_add [] [r] [] [] [] t)) by (intros; apply pm_rows; try (apply in_none); apply in_one; eapply one_sum_event; eassumption).
    assert (S3 : forall p n i r t, one_sensor f32 p n ev i = Ok r -> pm_grown ev t (tables_add [] [] r [] [] t)) by (intros; apply pm_rows; try (apply in_none); eapply one_sensor_event; eassumption).
    assert (S4 : forall p n i r t, one_sensor f32 p n ev i = Ok r -> pm_grown ev t (tables_add [] [] [] r [] t)) by (intros; apply pm_rows; try (apply in_none); eapply one_sensor_event; eassumption).
    assert (S5 : forall p n i r t, one_sensor f32 p n ev i = Ok r -> pm_grown ev t (tables_add [] [] [] [] r t)) by (intros; apply pm_rows; try (apply in_none); eapply one_sensor_event; eassumption).
    assert (A : forall l n t u x, write_s1s f32 l n ev t = (u, x) -> pm_grown ev t u).
    { induction l as [|p l IH]; intros n; cbn [write_s1s]; [intros t u x H; injection H as <- <-; apply pm_same|].
      apply bind_grown; [apply each_grown; intros; eapply S1; eassumption|]. apply bind_grown; [apply each_grown; intros; eapply S4; eassumption|]. apply IH. }
    assert (B : forall l n t u x, write_s2s f32 l n ev t = (u, x) -> pm_grown ev t u).
    { induction l as [|p l IH]; intros n; cbn [write_s2s]; [intros t u x H; injection H as <- <-; apply pm_same|].
      apply bind_grown; [apply each_grown; intros; eapply S2; eassumption|]. apply bind_grown; [apply each_grown; intros; eapply S5; eassumption|].
      apply bind_grown; [apply each_grown; intros; eapply S3; eassumption|]. apply IH. }
    unfold write_pmap. apply bind_grown; [apply A|apply B].
  Qed.
End Pm.

(** ---- irene and hypathia ---- *)
Lemma on_pmaps_exec p o : on_pmaps p o = let (t, r) := p (it_pmaps o) in (set_pmaps t o, r).
Proof. apply exec_within; [reflexivity|reflexivity|]. intros []. reflexivity. Qed.
Section Ire.
  Context {W L X : Type}.
  Variables (f32 : Q -> Q) (first : nat -> W -> L -> result (option X)) (second : X -> result (list peak * list peak)) (n_sensors : nat).
  Let run := pmaps_all f32 (both first second) n_sensors.
  Let step := pmaps_step f32 first second n_sensors.
  Lemma ire_comp a b c d e f g i u a' b' c' d' e' f' g' i' u' o : ire_add a' b' c' d' e' f' g' i' u' (ire_add a b c d e f g i u o) =
    ire_add (a ++ a') (b ++ b') (c ++ c') (d ++ d') (e ++ e') (f ++ f') (g ++ g') (i' + i) (u' + u) o.
  Proof. unfold set_pmaps, ire_add. j_end. rewrite <- !app_assoc, <- !Nat.add_assoc. reflexivity. Qed.
  Lemma ire_one w o : outcome (step w ((fun o => o) o)) = rbind (run [w] o) (fun o => Ok ((fun o => o) o)).
  Proof.
    unfold step, run, pmaps_step. cbn [pmaps_all]. unfold both. rewrite bind_look, bind_put, bind_call. destruct (first _ _ _) as [[x|]|]; [| |reflexivity].
    - cbn [rbind]. rewrite bind_put, bind_call. destruct (second x) as [pm|]; [|reflexivity]. cbn [rbind]. rewrite bind_put. destruct (nonempty_pmap pm).
      + rewrite bind_unit, on_pmaps_exec, !ire_comp. pose proof (pmap_link f32 (fst (w_event w)) {| s1s := fst pm; s2s := snd pm |} (it_pmaps o)) as P.
        change (it_pmaps (ire_add _ _ _ _ _ _ _ _ _ o)) with (it_pmaps o).
        destruct (write_pmap _ _ _ _) as [t [[]|e]]; unfold outcome in P; cbn [fst snd] in P; rewrite <- P; [|reflexivity]. cbn [rbind]. unfold outcome at 1. cbn [fst snd rbind].
        rewrite !bind_put. unfold write_trigger. rewrite bind_put, !ire_comp. unfold store_trigger.
        destruct (w_chn w) as [l|].
        * destruct (Nat.eqb _ _); [|reflexivity]. rewrite out_put, !ire_comp. cbn [rbind]. unfold set_pmaps, ire_add. j_end. cbn [app Nat.add]. rewrite ?app_nil_r.
          destruct (w_trg w) as [z|]; [destruct (z =? 0)%Z|]; rewrite ?app_nil_r; reflexivity.
        * rewrite out_ret. cbn [rbind]. unfold set_pmaps, ire_add. j_end. cbn [app Nat.add]. rewrite ?app_nil_r.
          destruct (w_trg w) as [z|]; [destruct (z =? 0)%Z|]; rewrite ?app_nil_r; reflexivity.
      + rewrite out_ret, !ire_comp. unfold set_pmaps, ire_add. j_end. cbn [app Nat.add]. rewrite ?app_nil_r. destruct o as [? ? ? ? ? [] ? ? ?]. reflexivity.
    - cbn [rbind]. rewrite out_put, !ire_comp. unfold set_pmaps, ire_add. j_end. cbn [app Nat.add]. rewrite ?app_nil_r. destruct o as [? ? ? ? ? [] ? ? ?]. reflexivity.
  Qed.
  Lemma ire_grows w o t e : step w ((fun o => o) o) = (t, Err e) -> ire_more n_sensors w ((fun o => o) o) t.
  Proof.
    assert (N : forall l, grown fst (fst (w_event w)) l (l ++ [(fst (w_event w), true)])) by (intros l; apply grown_rows; apply in_one; reflexivity).
    unfold step, pmaps_step, ire_more. rewrite bind_look, bind_put, bind_call. destruct (first _ _ _) as [[x|]|]; [|discriminate|].
    2:{ intros H. injection H as <- <-. unfold set_pmaps, ire_add. j_end. rewrite !app_nil_r. split; [apply grown_same|]. split; [apply grown_same|]. split; [apply pm_same|]. left. split; [reflexivity|]. split; [reflexivity|]. destruct (it_trigger o); reflexivity. }
    rewrite bind_put, bind_call, ire_comp. cbn [app Nat.add]. destruct (second x) as [pm|].
    2:{ intros H. injection H as <- <-. unfold set_pmaps, ire_add. j_end. rewrite !app_nil_r. split; [apply N|]. split; [apply grown_same|]. split; [apply pm_same|]. left. split; [reflexivity|]. split; [reflexivity|]. destruct (it_trigger o); reflexivity. }
    rewrite bind_put, ire_comp. cbn [app Nat.add]. destruct (nonempty_pmap pm); [|discriminate]. rewrite exec_bind, on_pmaps_exec. change (it_pmaps (ire_add _ _ _ _ _ _ _ _ _ o)) with (it_pmaps o).
    destruct (write_pmap _ _ _ (it_pmaps o)) as [u [[]|e1]] eqn:P; apply pmap_grown in P.
    - rewrite !bind_put. unfold write_trigger. rewrite bind_put, !ire_comp. cbn [app Nat.add]. destruct (w_chn w) as [l|]; [|discriminate].
      destruct (Nat.eqb_spec (List.length l) n_sensors) as [|Hl]; [discriminate|]. intros H. injection H as <- <-. unfold set_pmaps, ire_add. j_end. rewrite !app_nil_r. split; [apply N|]. split; [apply N|]. split; [exact P|].
      right. split; [reflexivity|]. split; [reflexivity|]. split; [reflexivity|]. eauto.
    - intros H. injection H as <- <-. unfold set_pmaps, ire_add. j_end. rewrite !app_nil_r. split; [apply N|]. split; [apply N|]. split; [exact P|]. left. split; [reflexivity|]. split; [reflexivity|]. destruct (it_trigger o); reflexivity.
  Qed.
End Ire.

Lemma C121_pmaps : forall {W L X} f32 (first : nat -> W -> L -> result (option X)) second n_sensors open_file paths,
  (forall o e, pmaps_left f32 first second n_sensors open_file paths = (o, Some e) -> pmaps_of_files f32 (both first second) n_sensors open_file paths = Err e /\
     left_by (wf_from_files open_file paths) (first_events (fun o => o) nothing_found (fun k => pmaps_range f32 (both first second) n_sensors (0, Some k) open_file paths)) (ire_more n_sensors) o e) /\
  (forall o, pmaps_left f32 first second n_sensors open_file paths = (o, None) <-> pmaps_of_files f32 (both first second) n_sensors open_file paths = Ok o).
Proof.
  intros. unfold pmaps_left, pmaps_of_files, pmaps_range.
  destruct (city_halts (pmaps_all f32 (both first second) n_sensors) (fun o => o) (pmaps_step f32 first second n_sensors)
    (pm_app f32 n_sensors (both first second)) (fun _ => eq_refl) (ire_one f32 first second n_sensors) (wf_from_files open_file paths) nothing_found _ (ire_grows f32 first second n_sensors)
    _ _ (whole_eq _ _ _) (fun k => whole_eq _ _ _)) as [H E].
  split; [exact H|]. intros o. rewrite E. split; [intros (o1 & H1 & ->); exact H1|eauto].
Qed.

Lemma pmaps_all_ext {W L} f32 n_sensors (f g : nat -> W -> L -> result (option (list peak * list peak))) : (forall i w l, f i w l = g i w l) ->
  forall events o, pmaps_all f32 f n_sensors events o = pmaps_all f32 g n_sensors events o.
Proof.
  intros H. induction events as [|w events IH]; intros o; cbn [pmaps_all]; [reflexivity|]. rewrite H. destruct (g _ _ _) as [[pm|]|]; cbn [rbind]; [|apply IH|reflexivity].
  destruct (nonempty_pmap pm); [|apply IH]. destruct (store_pmap _ _ _ _); [|reflexivity]. cbn [rbind]. destruct (store_trigger _ _ _ _); [|reflexivity]. cbn [rbind]. apply IH.
Qed.
Lemma pmaps_range_ext {W L} f32 n_sensors (f g : nat -> W -> L -> result (option (list peak * list peak))) : (forall i w l, f i w l = g i w l) ->
  forall r open_file paths, pmaps_range f32 f n_sensors r open_file paths = pmaps_range f32 g n_sensors r open_file paths.
Proof. intros H r open_file paths. unfold pmaps_range. destruct (ranged _ _) as [events e]. now rewrite (pmaps_all_ext _ _ _ _ H). Qed.
Lemma pmaps_of_ext {W L} f32 n_sensors (f g : nat -> W -> L -> result (option (list peak * list peak))) : (forall i w l, f i w l = g i w l) ->
  forall open_file paths, pmaps_of_files f32 f n_sensors open_file paths = pmaps_of_files f32 g n_sensors open_file paths.
Proof. intros H open_file paths. unfold pmaps_of_files. destruct (wf_from_files _ _) as [events e]. now rewrite (pmaps_all_ext _ _ _ _ H). Qed.
Lemma irene_parts butter sqrt pmts sipms p ns nss (i : nat) pmt sipm :
  irene_step butter sqrt pmts sipms p ns nss pmt sipm = both (fun _ => irene_first butter sqrt pmts sipms p ns) (irene_second pmts sipms p ns nss) i pmt sipm.
Proof.
  unfold both, irene_step, irene_first, irene_second. destruct (sensor_masker _ _ _ _) as [[a b]|]; [|reflexivity]. cbn [rbind]. destruct (deconv_pmt _ _ _ _ _); [|reflexivity]. cbn [rbind].
  destruct (calibrate_active_pmts _ _ _ _ _) as [[[[c d] e] f]|]; [|reflexivity]. cbn [rbind]. destruct (zero_suppress_wfs _ _ _ _) as [i1 i2]. cbn [rbind]. destruct (nonempty_indices i1 i2); [|reflexivity].
  cbn [negb]. destruct (calibrate_active_sipms _ _); reflexivity.
Qed.
Definition hyp_first (rn : nat -> hyp_randoms) pmts sipms p wl (i : nat) (pmtrd sipmrd : list (list Q)) := hypathia_first (hr_pmt (rn i)) (hr_sipm (rn i)) pmts sipms p {| cols := wl; rows := pmtrd |} sipmrd (hr_noise (rn i)).
Lemma hypathia_parts rn pmts sipms p wl nss (i : nat) pmt sipm :
  step_of rn pmts sipms p wl nss i pmt sipm = both (hyp_first rn pmts sipms p wl) (hypathia_second pmts sipms p nss) i pmt sipm.
Proof.
  unfold both, step_of, hyp_first, hypathia_step, hypathia_first, hypathia_second. destruct (rebin_pmts _ _); [|reflexivity]. cbn [rbind]. destruct (simulate_sipms _ _ _ _ _ _); [|reflexivity]. cbn [rbind].
  destruct (rmap _ _); [|reflexivity]. cbn [rbind]. destruct (mask_rows _ _); [|reflexivity]. cbn [rbind]. destruct (mask_rows _ _); [|reflexivity]. cbn [rbind].
  destruct (zero_suppress_wfs _ _ _ _) as [i1 i2]. cbn [rbind]. destruct (nonempty_indices i1 i2); [|reflexivity]. cbn [negb]. destruct (calibrate_active_sipms _ _); reflexivity.
Qed.

Lemma left_by_imp {I T} (source : list I * option pyexc) (R R' : nat -> T -> Prop) more t e : (forall k t, R k t -> R' k t) -> left_by source R more t e -> left_by source R' more t e.
Proof. intros H (k & t1 & F & G). exists k, t1. split; [apply H; exact F|exact G]. Qed.
Lemma first_ext {O T} (view : O -> T) empty r r' : (forall k, r k = r' k) -> forall k t, first_events view empty r k t -> first_events view empty r' k t.
Proof. intros H [|k] t; cbn [first_events]; [auto|]. now rewrite H. Qed.

Theorem C121_irene : forall butter sqrt f32 pmts sipms p ns nss n_sensors open_file paths,
  let left := pmaps_left f32 (fun _ => irene_first butter sqrt pmts sipms p ns) (irene_second pmts sipms p ns nss) n_sensors open_file paths in
  (forall o e, left = (o, Some e) -> irene f32 (irene_step butter sqrt pmts sipms p ns nss) n_sensors open_file paths = Err e /\
     left_by (wf_from_files open_file paths) (first_events (fun o => o) nothing_found (fun k => irene_range f32 (irene_step butter sqrt pmts sipms p ns nss) n_sensors (0, Some k) open_file paths)) (ire_more n_sensors) o e) /\
  (forall o, left = (o, None) <-> irene f32 (irene_step butter sqrt pmts sipms p ns nss) n_sensors open_file paths = Ok o).
Proof.
  intros butter sqrt f32 pmts sipms p ns nss n_sensors open_file paths. cbv zeta. destruct (C121_pmaps f32 (fun _ => irene_first butter sqrt pmts sipms p ns) (irene_second pmts sipms p ns nss) n_sensors open_file paths) as [H E].
  unfold irene. rewrite (pmaps_of_ext f32 n_sensors _ _ (irene_parts butter sqrt pmts sipms p ns nss)). split; [|exact E].
  intros o e L. destruct (H o e L) as [H1 H2]. split; [exact H1|]. eapply left_by_imp; [|exact H2]. apply first_ext. intros k. symmetry. unfold irene_range. apply pmaps_range_ext. intros i w l. apply irene_parts.
Qed.
Print Assumptions C121_irene.

Theorem C121_hypathia : forall f32 rn pmts sipms p wl nss open_file paths,
  let left := pmaps_left f32 (hyp_first rn pmts sipms p wl) (hypathia_second pmts sipms p nss) (List.length pmts) open_file paths in
  (forall o e, left = (o, Some e) -> hypathia f32 rn pmts sipms p wl nss open_file paths = Err e /\
     left_by (wf_from_files open_file paths) (first_events (fun o => o) nothing_found (fun k => hypathia_range f32 rn pmts sipms p wl nss (0, Some k) open_file paths)) (ire_more (List.length pmts)) o e) /\
  (forall o, left = (o, None) <-> hypathia f32 rn pmts sipms p wl nss open_file paths = Ok o).
Proof.
  intros f32 rn pmts sipms p wl nss open_file paths. cbv zeta. destruct (C121_pmaps f32 (hyp_first rn pmts sipms p wl) (hypathia_second pmts sipms p nss) (List.length pmts) open_file paths) as [H E].
  unfold hypathia. rewrite (pmaps_of_ext f32 (List.length pmts) _ _ (hypathia_parts rn pmts sipms p wl nss)). split; [|exact E].
  intros o e L. destruct (H o e L) as [H1 H2]. split; [exact H1|]. eapply left_by_imp; [|exact H2]. apply first_ext. intros k. symmetry. unfold hypathia_range. apply pmaps_range_ext. intros i w l. apply hypathia_parts.
Qed.
Print Assumptions C121_hypathia.

(** ---- diomira ---- *)
Section Dio.
  Variables (butter : Q -> Q * Q * Q) (sqrt : Q -> Q) (el : electronics).
  Variables (draw_pmt draw_sipm : nat -> nat -> nat -> Q -> Q) (noise : nat -> nat -> pmt_noise) (dark : nat -> list (list Q)).
  Variables (db : list dio_row) (sipms : list sim_row) (noise_cut : Q) (padding : nat) (t : option (bool * trig_conf)) (npmt ns nsipm nss : nat).
  Definition dio_all_event (i : nat) (pmtrd sipmrd : list (list Q)) := diomira_event butter sqrt el (draw_pmt i) (draw_sipm i) (noise i) db sipms noise_cut padding t npmt ns nsipm nss pmtrd sipmrd (dark i).
  Let run := diomira_all dio_all_event.
  Let step := diomira_step butter sqrt el draw_pmt draw_sipm noise dark db sipms noise_cut padding t npmt ns nsipm nss.
  Lemma dio_comp a b c d e f g i u a' b' c' d' e' f' g' i' u' o : dio_add a' b' c' d' e' f' g' i' u' (dio_add a b c d e f g i u o) =
    dio_add (a ++ a') (b ++ b') (c ++ c') (d ++ d') (e ++ e') (f ++ f') (g ++ g') (i' + i) (u' + u) o.
  Proof. unfold dio_add. j_end. rewrite <- !app_assoc, <- !Nat.add_assoc. reflexivity. Qed.
  Lemma bind_raise {T A B} e (q : A -> prog T B) o : bind (raise e) q o = (o, Err e). Proof. reflexivity. Qed.
  Lemma bind_bind {T A B C} (p : prog T A) (q : A -> prog T B) (r : B -> prog T C) o : bind (bind p q) r o = bind p (fun a => bind (q a) r) o.
  Proof. rewrite !exec_bind. destruct (p o) as [u [a|]]; [symmetry; apply exec_bind|reflexivity]. Qed.
  Lemma dio_one w o : outcome (step w ((fun o => o) o)) = rbind (run [w] o) (fun o => Ok ((fun o => o) o)).
  Proof.
    unfold step, run, diomira_step. cbn [diomira_all]. unfold dio_all_event, diomira_event. rewrite bind_look, bind_put, bind_call. destruct (simulate_pmts _ _ _ _ _) as [[rwf blr]|]; [|reflexivity].
    cbn [rbind]. rewrite bind_call. destruct (trigger_decision _ _ _ _ _) as [pass|]; [|reflexivity]. cbn [rbind]. rewrite bind_put, dio_comp. destruct pass; cbn [negb].
    - rewrite bind_call. destruct (simulate_sipms _ _ _ _ _ _) as [sipm|]; [|reflexivity]. cbn [rbind]. rewrite bind_put, dio_comp.
      destruct (fits_table npmt (ns / 25) rwf); cbn [negb]; [rewrite bind_put, dio_comp|now rewrite bind_raise].
      destruct (fits_table npmt (ns / 25) blr); cbn [negb]; [rewrite bind_put, dio_comp|now rewrite bind_raise].
      destruct (fits_table nsipm nss sipm); cbn [negb]; [rewrite bind_bind, bind_call|now rewrite bind_raise]. destruct (rmap _ sipm) as [z|]; [|reflexivity]. cbn [rbind].
      rewrite bind_put, out_put, !dio_comp. unfold dio_add. j_end. cbn [app Nat.add]. rewrite ?app_nil_r. reflexivity.
    - rewrite out_ret. unfold dio_add. j_end. cbn [app Nat.add]. rewrite ?app_nil_r. reflexivity.
  Qed.
  Lemma dio_grows w o u e : step w ((fun o => o) o) = (u, Err e) ->
    (fun (w : mcrd_event) before after => dt_events after = dt_events before /\ dt_runs after = dt_runs before /\ dt_sipm after = dt_sipm before /\ grown fst (fst (w_event w)) (dt_filter before) (dt_filter after) /\
       (exists rwf, dt_rwf after = dt_rwf before ++ rwf /\ List.length rwf <= 1) /\ (exists blr, dt_blr after = dt_blr before ++ blr /\ List.length blr <= 1)) w ((fun o => o) o) u.
  Proof.
    assert (N : forall (l : list (Z * bool)) b, grown fst (fst (w_event w)) l (l ++ [(fst (w_event w), b)])) by (intros l b; apply grown_rows; intros r [<-|[]]; reflexivity).
    unfold step, diomira_step. rewrite bind_look, bind_put, bind_call. destruct (simulate_pmts _ _ _ _ _) as [[rwf blr]|].
    2:{ intros H. injection H as <- <-. unfold dio_add. j_end. rewrite !app_nil_r. repeat (split; [reflexivity|]). split; [apply grown_same|]. split; exists []; (split; [now rewrite app_nil_r|cbn; lia]). }
    rewrite bind_call. destruct (trigger_decision _ _ _ _ _) as [pass|].
    2:{ intros H. injection H as <- <-. unfold dio_add. j_end. rewrite !app_nil_r. repeat (split; [reflexivity|]). split; [apply grown_same|]. split; exists []; (split; [now rewrite app_nil_r|cbn; lia]). }
    rewrite bind_put, dio_comp. destruct pass; [|discriminate]. rewrite bind_call. destruct (simulate_sipms _ _ _ _ _ _) as [sipm|].
    2:{ intros H. injection H as <- <-. unfold dio_add. j_end. rewrite !app_nil_r. repeat (split; [reflexivity|]). split; [apply N|]. split; exists []; (split; [now rewrite app_nil_r|cbn; lia]). }
    rewrite bind_put, dio_comp. destruct (fits_table npmt (ns / 25) rwf); [rewrite bind_put, dio_comp|rewrite bind_raise].
    2:{ intros H. injection H as <- <-. unfold dio_add. j_end. rewrite !app_nil_r. repeat (split; [reflexivity|]). split; [apply N|]. split; exists []; (split; [now rewrite app_nil_r|cbn; lia]). }
    destruct (fits_table npmt (ns / 25) blr); [rewrite bind_put, dio_comp|rewrite bind_raise].
    2:{ intros H. injection H as <- <-. unfold dio_add. j_end. rewrite !app_nil_r. repeat (split; [reflexivity|]). split; [apply N|].
        split; [exists [rwf]; split; [reflexivity|cbn; lia]|]. exists []. split; [now rewrite app_nil_r|cbn; lia]. }
    destruct (fits_table nsipm nss sipm); [rewrite bind_bind, bind_call|rewrite bind_raise].
    - destruct (rmap _ sipm) as [z|]; [discriminate|]. intros H. injection H as <- <-. unfold dio_add. j_end. rewrite !app_nil_r. repeat (split; [reflexivity|]). split; [apply N|].
      split; [exists [rwf]; split; [reflexivity|cbn; lia]|]. exists [blr]. split; [reflexivity|cbn; lia].
    - intros H. injection H as <- <-. unfold dio_add. j_end. rewrite !app_nil_r. repeat (split; [reflexivity|]). split; [apply N|].
      split; [exists [rwf]; split; [reflexivity|cbn; lia]|]. exists [blr]. split; [reflexivity|cbn; lia].
  Qed.
End Dio.

Theorem C121_diomira : forall butter sqrt el draw_pmt draw_sipm noise dark db sipms noise_cut padding t npmt ns nsipm nss open_file paths,
  let left := diomira_left butter sqrt el draw_pmt draw_sipm noise dark db sipms noise_cut padding t npmt ns nsipm nss open_file paths in
  let event i pmtrd sipmrd := diomira_event butter sqrt el (draw_pmt i) (draw_sipm i) (noise i) db sipms noise_cut padding t npmt ns nsipm nss pmtrd sipmrd (dark i) in
  (forall o e, left = (o, Some e) -> diomira event open_file paths = Err e /\
     left_by (wf_from_files open_file paths) (first_events (fun o => o) nothing_simulated (fun k => diomira_range event (0, Some k) open_file paths))
       (fun w before after => dt_events after = dt_events before /\ dt_runs after = dt_runs before /\ dt_sipm after = dt_sipm before /\ grown fst (fst (w_event w)) (dt_filter before) (dt_filter after) /\
          (exists rwf, dt_rwf after = dt_rwf before ++ rwf /\ List.length rwf <= 1) /\ (exists blr, dt_blr after = dt_blr before ++ blr /\ List.length blr <= 1)) o e) /\
  (forall o, left = (o, None) <-> diomira event open_file paths = Ok o).
Proof.
  intros butter sqrt el draw_pmt draw_sipm noise dark db sipms noise_cut padding t npmt ns nsipm nss open_file paths. cbv zeta. unfold diomira_left, diomira, diomira_range.
  destruct (city_halts (diomira_all (dio_all_event butter sqrt el draw_pmt draw_sipm noise dark db sipms noise_cut padding t npmt ns nsipm nss)) (fun o => o)
    (diomira_step butter sqrt el draw_pmt draw_sipm noise dark db sipms noise_cut padding t npmt ns nsipm nss)
    (dio_app _) (fun _ => eq_refl) (dio_one butter sqrt el draw_pmt draw_sipm noise dark db sipms noise_cut padding t npmt ns nsipm nss) (wf_from_files open_file paths) nothing_simulated _
    (dio_grows butter sqrt el draw_pmt draw_sipm noise dark db sipms noise_cut padding t npmt ns nsipm nss) _ _ (whole_eq _ _ _) (fun k => whole_eq _ _ _)) as [H E].
  split; [exact H|]. intros o. rewrite E. split; [intros (o1 & H1 & ->); exact H1|eauto].
Qed.
Print Assumptions C121_diomira.

(** ---- isidora ---- *)
Section Isi.
  Variables (butter : Q -> Q * Q * Q) (sqrt : Q -> Q) (pmts : list IreneModel.pmt_row) (n_baseline : nat) (s : shapes).
  Let run := isidora_all butter sqrt pmts n_baseline s.
  Let step := isidora_step butter sqrt pmts n_baseline s.
  Lemma isi_comp a b c d e i a' b' c' d' e' i' t : isi_add a' b' c' d' e' i' (isi_add a b c d e i t) = isi_add (a ++ a') (b ++ b') (c ++ c') (d ++ d') (e ++ e') (i' + i) t.
  Proof. unfold isi_add. j_end. rewrite <- !app_assoc, <- !Nat.add_assoc. reflexivity. Qed.
  Lemma isi_one w o : outcome (step w ((fun o => o) o)) = rbind (run [w] o) (fun o => Ok ((fun o => o) o)).
  Proof.
    unfold step, run, isidora_step. cbn [isidora_all]. unfold isidora_event. rewrite !bind_put, isi_comp, bind_call. destruct (deconv_pmt _ _ _ _ _) as [cwf|]; [|reflexivity]. cbn [rbind].
    destruct (fits_table (n_pmt s) _ cwf); cbn [negb]; [rewrite bind_bind, bind_call|now rewrite bind_raise]. destruct (rmap _ cwf) as [z|]; [|reflexivity]. cbn [rbind]. rewrite bind_put, isi_comp.
    destruct (fits_table (n_sipm s) _ _); cbn [negb]; [|now rewrite bind_raise]. rewrite bind_put, out_put, !isi_comp. cbn [rbind]. unfold isi_add. j_end. cbn [app Nat.add]. rewrite ?app_nil_r. reflexivity.
  Qed.
  Lemma isi_grows w o u e : step w ((fun o => o) o) = (u, Err e) ->
    (fun (w : rwf_event) before after => si_events after = si_events before /\ si_runs after = si_runs before /\ si_sipm after = si_sipm before /\
       exists cwf, si_cwf after = si_cwf before ++ cwf /\ List.length cwf <= 1) w ((fun o => o) o) u.
  Proof.
    unfold step, isidora_step. rewrite !bind_put, isi_comp, bind_call. destruct (deconv_pmt _ _ _ _ _) as [cwf|].
    2:{ intros H. injection H as <- <-. unfold isi_add. j_end. rewrite !app_nil_r. repeat (split; [reflexivity|]). exists []. split; [now rewrite app_nil_r|cbn; lia]. }
    destruct (fits_table (n_pmt s) _ cwf); [rewrite bind_bind, bind_call|rewrite bind_raise].
    2:{ intros H. injection H as <- <-. unfold isi_add. j_end. rewrite !app_nil_r. repeat (split; [reflexivity|]). exists []. split; [now rewrite app_nil_r|cbn; lia]. }
    destruct (rmap _ cwf) as [z|].
    2:{ intros H. injection H as <- <-. unfold isi_add. j_end. rewrite !app_nil_r. repeat (split; [reflexivity|]). exists []. split; [now rewrite app_nil_r|cbn; lia]. }
    rewrite bind_put, isi_comp. destruct (fits_table (n_sipm s) _ _); [discriminate|]. rewrite bind_raise. intros H. injection H as <- <-. unfold isi_add. j_end. rewrite !app_nil_r. repeat (split; [reflexivity|]).
    exists [z]. split; [reflexivity|cbn; lia].
  Qed.
End Isi.

Theorem C121_isidora : forall butter sqrt pmts n_baseline s open_file paths,
  let left := isidora_left butter sqrt pmts n_baseline s open_file paths in
  (forall o e, left = (o, Some e) -> isidora butter sqrt pmts n_baseline s open_file paths = Err e /\
     left_by (wf_from_files open_file paths) (first_events (fun o => o) nothing_restored (fun k => isidora_range butter sqrt pmts n_baseline s (0, Some k) open_file paths))
       (fun w before after => si_events after = si_events before /\ si_runs after = si_runs before /\ si_sipm after = si_sipm before /\
          exists cwf, si_cwf after = si_cwf before ++ cwf /\ List.length cwf <= 1) o e) /\
  (forall o, left = (o, None) <-> isidora butter sqrt pmts n_baseline s open_file paths = Ok o).
Proof.
  intros butter sqrt pmts n_baseline s open_file paths. cbv zeta. unfold isidora_left, isidora, isidora_range.
  destruct (city_halts (isidora_all butter sqrt pmts n_baseline s) (fun o => o) (isidora_step butter sqrt pmts n_baseline s) (isi_app butter sqrt pmts n_baseline s tt) (fun _ => eq_refl)
    (isi_one butter sqrt pmts n_baseline s) (wf_from_files open_file paths) nothing_restored _ (isi_grows butter sqrt pmts n_baseline s) _ _ (whole_eq _ _ _) (fun k => whole_eq _ _ _)) as [H E].
  split; [exact H|]. intros o. rewrite E. split; [intros (o1 & H1 & ->); exact H1|eauto].
Qed.
Print Assumptions C121_isidora.
