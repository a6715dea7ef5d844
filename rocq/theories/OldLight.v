(** C123: the light of simulation files before 2020 *)
From Coq Require Import String.
From Verif Require Import Base ReadModel McModel McSpec McProps SbinModel SbinSpec SbinProps BuffersModel BfyModel OldLightModel OldBfyModel OldLightSpec.
Local Open Scope string_scope.

Lemma owner_det ext i a b : owner ext i a -> owner ext i b -> a = b.
Proof.
  intros (k & x & E & <- & L & H) (k' & x' & E' & <- & L' & H'). destruct (lt_eq_lt_dec k k') as [[Hk|Hk]|Hk].
  - specialize (H' k x Hk E). lia.
  - subst. rewrite E in E'. now injection E' as <-.
  - specialize (H k' x' Hk E'). lia.
Qed.
Lemma isin_in l id : existsb (Z.eqb id) l = true <-> In id l.
Proof. rewrite existsb_exists. split; [intros (x & Hx & E); apply Z.eqb_eq in E; now subst|intros H; exists id; split; [exact H|apply Z.eqb_refl]]. Qed.
Lemma first_of (f : string -> bool) bins name : first_name (fun n => f n = true) bins name -> exists l, filter f (map fst bins) = name :: l.
Proof.
  intros (l1 & w & l2 & -> & Hn & H). rewrite map_app, filter_app. cbn [map filter fst]. rewrite Hn. replace (filter f (map fst l1)) with (@nil string); [eexists; reflexivity|].
  symmetry. induction (map fst l1) as [|n l IH]; [reflexivity|]. cbn. destruct (f n) eqn:E; [destruct (H n (or_introl eq_refl) E)|]. apply IH. intros m Hm. apply H. now right.
Qed.
Lemma first_imp (P R : string -> Prop) bins name : (forall n, P n <-> R n) -> first_name P bins name -> first_name R bins name.
Proof. intros E (l1 & w & l2 & -> & Hn & H). exists l1, w, l2. split; [reflexivity|]. split; [now apply E|]. intros n Hn' Hr. apply (H n Hn'). now apply E. Qed.
Lemma positions_ok pmts o bins pmt sipm : types bins pmt sipm -> load_mcsensor_positions pmts o bins = Ok (map (fun id => (id, if is_pmt pmts id then pmt else sipm)) (of_pos o)).
Proof.
  intros [P S]. unfold load_mcsensor_positions. destruct (of_pos o) as [|i ids]; [reflexivity|]. destruct bins as [|b bins]; [destruct P as (l1 & w & l2 & E & _); destruct l1; discriminate|].
  destruct (first_of (fun n => contains "Pmt" n) (b :: bins) pmt) as (l & ->). { eapply first_imp; [|exact P]. intros n. symmetry. apply contains_spec. }
  destruct (first_of (fun n => negb (contains "Pmt" n)) (b :: bins) sipm) as (l' & ->). { eapply first_imp; [|exact S]. intros n. rewrite Bool.negb_true_iff. symmetry. apply contains_false. }
  reflexivity.
Qed.
Lemma dfold_ok o : complete o -> exists resp, load_mcsensors_dfold o = Ok resp /\ Forall2 (fun w r => r_sensor r = w_sensor w /\ r_bin r = w_bin w /\ r_charge r = w_charge w) (of_wf o) resp /\
  forall i r, nth_error resp i = Some r -> owner (of_ext o) i (r_event r).
Proof.
  intros [H1 H2]. destruct (C34_rows_attributed (of_ext o) (of_wf o) H1 H2) as (out & E & M & H). unfold load_mcsensors_dfold. rewrite E. cbn [rbind]. eexists. split; [reflexivity|]. split.
  - rewrite <- M. clear. induction out as [|[w e] out IH]; cbn; constructor; auto.
  - intros i r Hr. rewrite nth_error_map in Hr. destruct (nth_error out i) as [[w e]|] eqn:En; [|discriminate]. cbn in Hr. injection Hr as <-. cbn. now apply (H i w e).
Qed.
Lemma resp_same ext wf : forall k a b, Forall2 (fun w r => r_sensor r = w_sensor w /\ r_bin r = w_bin w /\ r_charge r = w_charge w) wf a -> Forall2 (fun w r => r_sensor r = w_sensor w /\ r_bin r = w_bin w /\ r_charge r = w_charge w) wf b ->
  (forall i r, nth_error a i = Some r -> owner ext (k + i) (r_event r)) -> (forall i r, nth_error b i = Some r -> owner ext (k + i) (r_event r)) -> a = b.
Proof.
  induction wf as [|w wf IH]; intros k a b A B Ha Hb; inversion A as [|? [e s t c] ? a' (A1 & A2 & A3) A']; inversion B as [|? [e' s' t' c'] ? b' (B1 & B2 & B3) B']; subst; [reflexivity|]. cbn in *. subst.
  f_equal; [f_equal; apply (owner_det ext (k + 0)); [exact (Ha 0%nat _ eq_refl)|exact (Hb 0%nat _ eq_refl)]|].
  apply (IH (S k)); auto; intros i r Hr; replace (S k + i)%nat with (k + S i)%nat by lia; [now apply Ha|now apply Hb].
Qed.

(** the same items as from a file of the format of 2020 with the same simulation *)
Theorem C123_same : forall float unit is_pmt_name pmt_db db run o n, db <> "" -> run <> 0%Z -> stands_for float unit is_pmt_name pmt_db (OldFile o) n ->
  sensors_of_ofile float unit (map Z.of_nat pmt_db) db run o = sensors_of_nfile float unit is_pmt_name pmt_db n.
Proof.
  intros float unit is_pmt_name pmt_db db run o n Hd Hr (bins & pmt & sipm & C & (conf & conf' & Ec & Ec' & B & B') & T & Hs & [L O P V]). set (pmts := map Z.of_nat pmt_db) in *.
  destruct (dfold_ok o C) as (resp & E & L' & O'). assert (resp = nf_resp n) by (apply (resp_same (of_ext o) (of_wf o) 0); auto). subst resp.
  unfold sensors_of_ofile, load_old_response. rewrite E. cbn [rbind]. replace (db =? "") with false by (symmetry; now apply String.eqb_neq). replace (run =? 0)%Z with false by (symmetry; now apply Z.eqb_neq). cbn [orb]. rewrite Ec, B. cbn [rbind]. rewrite (positions_ok pmts o bins pmt sipm T). cbn [rbind].
  assert (Ep : map (fun id => (id, if is_pmt pmts id then pmt else sipm)) (of_pos o) = nf_pos n).
  { clear -P. induction P as [|id [i m] ids ps [E [T1 T2]] _ IH]; [reflexivity|]. cbn [map fst snd] in *. subst i. f_equal; [|exact IH]. f_equal. unfold is_pmt. destruct (existsb (Z.eqb id) pmts) eqn:Ei; [symmetry; apply T1; now apply isin_in|].
    symmetry. apply T2. intros Hi. apply isin_in in Hi. congruence. }
  rewrite Ep. unfold sensors_of_nfile. rewrite Ec', B'. unfold sensors_of_file. cbn [m_resp m_bins m_pos m_events]. fold pmts.
  replace (forallb _ (nf_pos n)) with true; [rewrite V; reflexivity|]. symmetry. apply forallb_forall. rewrite <- Ep. intros [id m] Hm. apply in_map_iff in Hm. destruct Hm as (id' & E' & _). injection E' as -> <-. unfold is_pmt.
  destruct (existsb (Z.eqb id) pmts); [apply Bool.orb_true_r|now rewrite Hs].
Qed.
Print Assumptions C123_same.

Lemma over_same {A B I} (f : A -> generated I) (g : B -> generated I) l m : Forall2 (fun a b => f a = g b) l m -> over_files f l = over_files g m.
Proof. intros H. induction H as [|a b l m E _ IH]; [reflexivity|]. cbn [over_files]. rewrite E, IH. reflexivity. Qed.
(** a run of buffy over files of both formats is one over files of the format of 2020 *)
Theorem C123_buffy : forall float unit is_pmt_name pmt_db sipm_db db run mus b rate draw files news, db <> "" -> run <> 0%Z -> Forall2 (stands_for float unit is_pmt_name pmt_db) files news ->
  buffy_any float unit is_pmt_name pmt_db sipm_db db run mus b rate draw files = buffy_run float unit is_pmt_name pmt_db sipm_db mus b rate draw news.
Proof.
  intros float unit is_pmt_name pmt_db sipm_db db run mus b rate draw files news Hd Hr H. unfold buffy_any, buffy_run. destruct (check_max_time _ _ _) as [mt|]; [|reflexivity]. cbn [rbind].
  replace (pmt_and_sipm_bin_width_safe float unit (map conf_of files)) with (pmt_and_sipm_bin_width_safe float unit (map (fun f => option_map (pair false) (nf_conf f)) news)).
  - rewrite (over_same (sensors_of_any float unit is_pmt_name pmt_db db run) (sensors_of_nfile float unit is_pmt_name pmt_db) files news); [reflexivity|].
    clear -H Hd Hr. induction H as [|f n files news S _ IH]; constructor; [|exact IH]. destruct f as [o|n']; cbn [sensors_of_any]; [now apply C123_same|now rewrite S].
  - clear -H. induction H as [|f n files news S _ IH]; [reflexivity|]. cbn [map pmt_and_sipm_bin_width_safe]. rewrite IH. destruct f as [o|n']; [|now rewrite S].
    destruct S as (bins & pmt & sipm & _ & (conf & conf' & Ec & Ec' & B & B') & _). cbn [conf_of]. rewrite Ec, Ec'. cbn [option_map widths_of_file]. unfold pmt_and_sipm_bin_width. rewrite B, B'. reflexivity.
Qed.
Print Assumptions C123_buffy.

(** the table of the light of an old file *)
Theorem C123_light : forall float unit pmts db run o conf bins pmt sipm, db <> "" -> run <> 0%Z -> complete o -> of_conf o = Some conf -> get_sensor_binning float unit true conf = Ok bins ->
  NoDup (map fst bins) -> types bins pmt sipm -> NoDup (of_pos o) -> exists rows, load_old_response float unit pmts db run o = Ok rows /\ light (of_ext o) pmts (of_pos o) pmt sipm bins 0 (of_wf o) rows.
Proof.
  intros float unit pmts db run o conf bins pmt sipm Hd Hr C Ec B Nb T Np. destruct (dfold_ok o C) as (resp & E & L & O). unfold load_old_response. rewrite E. cbn [rbind].
  replace (db =? "") with false by (symmetry; now apply String.eqb_neq). replace (run =? 0)%Z with false by (symmetry; now apply Z.eqb_neq). cbn [orb]. rewrite Ec, B. cbn [rbind]. rewrite (positions_ok pmts o bins pmt sipm T). cbn [rbind].
  eexists. split; [reflexivity|]. clear E C Ec B. set (ty := fun id => if is_pmt pmts id then pmt else sipm).
  assert (W : forall id, exists w, widths_of bins (ty id) = [Some w] /\ In (ty id, w) bins).
  { assert (W0 : forall m P, first_name P bins m -> exists w, widths_of bins m = [Some w] /\ In (m, w) bins).
    { intros m P (l1 & w & l2 & -> & _). exists w. split; [|apply in_or_app; right; now left]. unfold widths_of. rewrite map_app in Nb. cbn in Nb. rewrite filter_app. cbn [filter]. rewrite String.eqb_refl.
      assert (F : forall l, ~ In m (map fst l) -> filter (fun '(n0, _) => (n0 =? m)%string) l = [] :> list (string * Q)).
      { induction l as [|[a q] l IH]; [reflexivity|]. cbn [map fst In filter]. intros Hl. destruct (String.eqb_spec a m); [tauto|]. apply IH. tauto. }
      apply NoDup_remove_2 in Nb. rewrite in_app_iff in Nb. rewrite (F l1), (F l2) by tauto. reflexivity. }
    intros id. unfold ty. destruct T as [T1 T2]. destruct (is_pmt pmts id); eauto. }
  assert (Ty : forall id, typed pmts pmt sipm id (ty id)).
  { intros id. unfold ty, is_pmt. split; intros Hi; [rewrite (proj2 (isin_in pmts id) Hi); reflexivity|]. destruct (existsb (Z.eqb id) pmts) eqn:Ei; [apply isin_in in Ei; contradiction|reflexivity]. }
  assert (In1 : forall r pos, NoDup pos -> flat_map (fun '(id, name) => if Z.eqb id (r_sensor r) then map (fun w => {| s_event := r_event r; s_sensor := r_sensor r; s_name := name; s_time := option_map (fun w => (w * inject_Z (r_bin r))%Q) w; s_charge := r_charge r |}) (widths_of bins name) else []) (map (fun id => (id, ty id)) pos) =
    if existsb (Z.eqb (r_sensor r)) pos then map (fun w => {| s_event := r_event r; s_sensor := r_sensor r; s_name := ty (r_sensor r); s_time := option_map (fun w => (w * inject_Z (r_bin r))%Q) w; s_charge := r_charge r |}) (widths_of bins (ty (r_sensor r))) else []).
  { intros r pos Hn. induction Hn as [|id pos Hi Hn IH]; [reflexivity|]. cbn [map flat_map existsb]. rewrite IH. rewrite (Z.eqb_sym (r_sensor r) id). destruct (Z.eqb_spec id (r_sensor r)) as [->|]; [|reflexivity]. cbn [orb].
    destruct (existsb (Z.eqb (r_sensor r)) pos) eqn:Ex; [apply isin_in in Ex; contradiction|apply app_nil_r]. }
  unfold convert_timebin_to_time. change (fun id : Z => (id, if is_pmt pmts id then pmt else sipm)) with (fun id : Z => (id, ty id)).
  assert (G : forall k wf resp, Forall2 (fun w r => r_sensor r = w_sensor w /\ r_bin r = w_bin w /\ r_charge r = w_charge w) wf resp -> (forall i r, nth_error resp i = Some r -> owner (of_ext o) (k + i) (r_event r)) ->
    light (of_ext o) pmts (of_pos o) pmt sipm bins k wf (flat_map (fun r => flat_map (fun '(id, name) => if Z.eqb id (r_sensor r) then map (fun w => {| s_event := r_event r; s_sensor := r_sensor r; s_name := name; s_time := option_map (fun w => (w * inject_Z (r_bin r))%Q) w; s_charge := r_charge r |}) (widths_of bins name) else []) (map (fun id => (id, ty id)) (of_pos o))) resp)).
  { intros k wf rs F. revert k. induction F as [|w r wf rs (E1 & E2 & E3) F IH]; intros k Hk; [constructor|]. cbn [flat_map]. rewrite In1 by exact Np.
    assert (Hk' : forall i r, nth_error rs i = Some r -> owner (of_ext o) (S k + i) (r_event r)) by (intros i r' Hr'; replace (S k + i)%nat with (k + S i)%nat by lia; now apply Hk).
    rewrite E1. destruct (existsb (Z.eqb (w_sensor w)) (of_pos o)) eqn:Ex.
    - apply isin_in in Ex. destruct (W (w_sensor w)) as (q & -> & Hq). cbn [map app option_map]. apply light_row; cbn [s_event s_sensor s_name s_time s_charge]; auto; [rewrite <- (Nat.add_0_r k); now apply Hk|exists q; split; [exact Hq|now rewrite E2]].
    - apply light_unknown; [intros Hi; apply isin_in in Hi; congruence|now apply IH]. }
  now apply (G 0%nat).
Qed.
Print Assumptions C123_light.

(** a run with the number 0, or without a database, cannot read an old file *)
Theorem C123_run_zero : forall float unit pmts db run o, complete o -> db = "" \/ run = 0%Z -> sensors_of_ofile float unit pmts db run o = ([], Some AssertionError).
Proof.
  intros float unit pmts db run o C H. destruct (dfold_ok o C) as (resp & E & _). unfold sensors_of_ofile, load_old_response. rewrite E. cbn [rbind]. replace ((db =? "") || (run =? 0)%Z) with true; [reflexivity|].
  destruct H as [-> | ->]; [reflexivity|]. symmetry. apply Bool.orb_true_r.
Qed.
Print Assumptions C123_run_zero.
(** without positions every event comes without light *)
Theorem C123_no_positions : forall float unit pmts db run o conf bins, db <> "" -> run <> 0%Z -> complete o -> of_conf o = Some conf -> get_sensor_binning float unit true conf = Ok bins -> of_pos o = [] ->
  sensors_of_ofile float unit pmts db run o = (map (fun x => (x_event x, ([], []))) (of_ext o), None).
Proof.
  intros float unit pmts db run o conf bins Hd Hr C Ec B Hp. destruct (dfold_ok o C) as (resp & E & _). unfold sensors_of_ofile, load_old_response. rewrite E. cbn [rbind].
  replace (db =? "") with false by (symmetry; now apply String.eqb_neq). replace (run =? 0)%Z with false by (symmetry; now apply Z.eqb_neq). cbn [orb]. rewrite Ec, B. cbn [rbind]. unfold load_mcsensor_positions. rewrite Hp. cbn [rbind].
  replace (convert_timebin_to_time resp bins []) with (@nil ReadModel.stime) by (symmetry; unfold convert_timebin_to_time; clear; induction resp; [reflexivity|exact IHresp]). unfold old_events. rewrite map_map. reflexivity.
Qed.
Print Assumptions C123_no_positions.
(** with the sampling period of only one of the types the file is refused *)
Theorem C123_one_type : forall float unit pmts db run o conf bins, db <> "" -> run <> 0%Z -> complete o -> of_conf o = Some conf -> get_sensor_binning float unit true conf = Ok bins -> bins <> [] -> of_pos o <> [] ->
  (forall n, In n (map fst bins) -> within "Pmt" n) \/ (forall n, In n (map fst bins) -> ~ within "Pmt" n) -> sensors_of_ofile float unit pmts db run o = ([], Some IndexError).
Proof.
  intros float unit pmts db run o conf bins Hd Hr C Ec B Hb Hp H. destruct (dfold_ok o C) as (resp & E & _). unfold sensors_of_ofile, load_old_response. rewrite E. cbn [rbind].
  replace (db =? "") with false by (symmetry; now apply String.eqb_neq). replace (run =? 0)%Z with false by (symmetry; now apply Z.eqb_neq). cbn [orb]. rewrite Ec, B. cbn [rbind]. unfold load_mcsensor_positions. destruct (of_pos o) as [|i ids]; [congruence|].
  destruct bins as [|b bins]; [congruence|]. set (names := map fst (b :: bins)) in *. clearbody names.
  assert (F : forall (f : string -> bool), (forall n, In n names -> f n = false) -> filter f names = []). { intros f. clear. induction names as [|n names IH]; [reflexivity|]. intros H. cbn. rewrite (H n) by now left. apply IH. intros m Hm. apply H. now right. }
  destruct H as [H|H].
  - rewrite (F (fun n => negb (contains "Pmt" n))); [|intros n Hn; rewrite (proj2 (contains_spec "Pmt" n) (H n Hn)); reflexivity]. now destruct (filter _ names).
  - rewrite (F (fun n => contains "Pmt" n)); [reflexivity|]. intros n Hn. apply contains_false. now apply H.
Qed.
Print Assumptions C123_one_type.

(** an old file with three events, and the same simulation in the new format *)
Definition wv (s b : Z) (q : Q) : wave := {| w_sensor := s; w_bin := b; w_charge := q |}.
Definition old_ex : ofile :=
  {| of_conf := Some [("geometry", "NEXT100"); ("/PmtR11410_binning", "100 nanosecond"); ("/Geom/SiPM_binning_x", "1 microsecond")];
     of_ext := [ext 7 3; ext 8 4; ext 9 6]; of_wf := [wv 0 12 10; wv 2 12 (7 # 2); wv 0 60 8; wv 1001 1 4; wv 2 3 9; wv 0 5 2; wv 1000 0 6]; of_pos := [0; 2; 1000; 1001]%Z |}.
Definition new_ex : nfile :=
  {| nf_conf := Some [("PmtR11410_binning", "100 nanosecond"); ("SiPM_binning", "1 microsecond")];
     nf_resp := map (fun '(e, w) => {| r_event := e; r_sensor := w_sensor w; r_bin := w_bin w; r_charge := w_charge w |}) (combine [7; 7; 7; 7; 8; 9; 9]%Z (of_wf old_ex));
     nf_pos := [(0, "PmtR11410"); (2, "PmtR11410"); (1000, "SiPM"); (1001, "SiPM")]%Z; nf_events := [7; 8; 9]%Z |}.
Definition pmt_like (s : string) : bool := String.eqb s "PmtR11410".
Example C123_ex : stands_for ex_float ex_unit pmt_like [0; 2]%nat (OldFile old_ex) new_ex.
Proof.
  exists [("PmtR11410", (100 * 1)%Q); ("SiPM", (1 * 1000)%Q)], "PmtR11410", "SiPM".
  assert (P : within "Pmt" "PmtR11410") by (exists "", "R11410"; reflexivity). assert (S : ~ within "Pmt" "SiPM") by (apply contains_false; reflexivity).
  split; [split; [unfold in_order; repeat constructor; cbn; lia|right; exists (ext 9 6); split; [cbn; tauto|reflexivity]]|]. split; [eexists; eexists; split; [reflexivity|]; split; [reflexivity|]; split; vm_compute; reflexivity|].
  split; [split; [exists [], (100 * 1)%Q, [("SiPM", (1 * 1000)%Q)]; repeat split; auto|exists [("PmtR11410", (100 * 1)%Q)], (1 * 1000)%Q, []; split; [reflexivity|]; split; [exact S|]; intros n [<-|[]] H; contradiction]|]. split; [reflexivity|]. split.
  - repeat constructor.
  - intros i r H. do 7 (destruct i as [|i]; [injection H as <-; cbn [r_event]; first [exists 0%nat, (ext 7 3); split; [reflexivity|]; split; [reflexivity|]; split; [cbn; lia|intros k' x' Hk; lia]|exists 1%nat, (ext 8 4); split; [reflexivity|]; split; [reflexivity|]; split; [cbn; lia|intros [|k'] x' Hk Hx; [injection Hx as <-; cbn; lia|lia]]|exists 2%nat, (ext 9 6); split; [reflexivity|]; split; [reflexivity|]; split; [cbn; lia|intros [|[|k']] x' Hk Hx; [injection Hx as <-; cbn; lia|injection Hx as <-; cbn; lia|lia]]]|]).
    destruct i; discriminate.
  - cbn [map Z.of_nat]. unfold typed. repeat constructor; cbn; intros H; try reflexivity; exfalso; try (apply H; tauto); destruct H as [H|[H|[]]]; discriminate.
  - reflexivity.
Qed.
(** an event without light gets a copy of the last row of the event before it *)
Theorem C123_empty_event_refuted : exists o items e p, of_wf o = [wv 0 12 10] /\ map x_event (of_ext o) = [7; 8]%Z /\ sensors_of_ofile ex_float ex_unit [0; 2]%Z "new" 1 o = (items, None) /\
  In (e, (p, [])) items /\ e = 8%Z /\ map s_charge p = [10%Q].
Proof.
  exists {| of_conf := of_conf old_ex; of_ext := [ext 7 0; ext 8 0]; of_wf := [wv 0 12 10]; of_pos := [0; 1000]%Z |}. eexists. eexists. eexists. split; [reflexivity|]. split; [reflexivity|]. split; [vm_compute; reflexivity|]. split; [right; left; reflexivity|]. split; reflexivity.
Qed.
Print Assumptions C123_empty_event_refuted.
