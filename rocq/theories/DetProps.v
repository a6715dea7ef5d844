(** C115: the tables of a run of detsim *)
From Coq Require Import String Qround Lia.
From Verif Require ReadModel ReadSpec ReadProps ReadMc ReadProps.
From Verif Require Import Base Arrays PeaksModel BuffersModel BuffersSpec PeaksProofs BuffersProofs BuffersSlice BuffersProps DetsimModel DetsimSpec S1Model S1Spec S1Props DsimModel DsimSpec DsimProofs DsimProps DioModel ConfigModel FrunModel BfyModel BfySpec BfyProofs BfyProps DetModel DetSpec DetProofs.
Local Open Scope nat_scope.

(** ---- the files ---- *)
Lemma items_of rate rate0 draw files : ReadMc.effective_rate rate rate0 -> (forall n, (0 <= draw n /\ draw n < 1)%Q) ->
  exists parts, det_items rate draw files = List.concat parts /\ Forall2 (from_file rate0) files parts.
Proof.
  intros Hr Hd. unfold det_items, mapi. generalize 0 as n. induction files as [|f files IH]; intros n; [exists []; split; [reflexivity|constructor]|]. cbn [flat_map].
  assert (App : forall A B (g : nat -> A -> B) l1 l2 n, mapi_from n g (l1 ++ l2) = mapi_from n g l1 ++ mapi_from (n + len l1) g l2).
  { clear. intros A B g. induction l1 as [|x l1 IH]; intros l2 n; cbn [app mapi_from len]; [now rewrite Nat.add_0_r|]. rewrite IH. do 2 f_equal. f_equal. lia. }
  rewrite App. match goal with |- context [mapi_from (n + ?m) _ _] => destruct (IH (n + m)) as (parts & E & F) end. rewrite E. eexists (_ :: parts). split; [reflexivity|]. constructor; [|exact F].
  exists (match hf_hits f with None => [] | Some hits => ReadModel.mc_groups fst hits end). destruct (hf_hits f) as [hits|] eqn:Eh; [|split; [reflexivity|constructor]]. split.
  - unfold ReadMc.events_of_file, ReadModel.mc_groups. destruct (ReadMc.sorted_events_spec (map fst hits)) as [S I]. rewrite map_map. cbn [fst]. rewrite map_id. split; [assumption|]. split; [assumption|]. split.
    + intros ev l Hin. apply in_map_iff in Hin. destruct Hin as (ev' & E2 & _). injection E2 as -> <-. apply ReadProps.kept_filter. intros x. apply Z.eqb_eq.
    + rewrite (ReadProps.partition_by_key fst (ReadModel.sorted_events (map fst hits)) hits) at 1; [|now apply ReadMc.sorted_nodup|intros x Hx; apply I; now apply in_map].
      match goal with |- Permutation ?a ?b => assert (E2 : a = b); [|rewrite E2; reflexivity] end. now rewrite !flat_map_concat_map, map_map.
  - clear -Hr Hd. revert n. induction (ReadModel.mc_groups fst hits) as [|[ev g] l IH]; intros n; [constructor|]. cbn [map mapi_from]. constructor; [|apply IH]. cbn [di_event di_hits di_names di_time fst snd]. do 3 (split; [reflexivity|]). destruct (Hd n). now apply ReadMc.timestamp_in_period.
Qed.
Lemma file_event rate f part e ACTIVE BUFFER : (0 < rate)%Q -> good_hits ACTIVE BUFFER f -> from_file rate f part -> In e part ->
  (exists a, volume (di_names e) ACTIVE a) /\ (exists b, volume (di_names e) BUFFER b) /\ di_hits e <> [] /\ (forall h, In h (di_hits e) -> 0 <= he h)%Q /\ (0 <= di_time e)%Q.
Proof.
  intros Hr G (groups & Ef & F) He. assert (Hg : exists g, In g groups /\ di_event e = fst g /\ di_hits e = map snd (snd g) /\ di_names e = hf_names f /\ ReadSpec.in_period rate (fst g) (di_time e)).
  { clear -F He. induction F as [|g x groups part H F IH]; [easy|]. destruct He as [<-|He]; [exists g; split; [now left|exact H]|]. destruct (IH He) as (g' & I & H'). exists g'. split; [now right|exact H']. }
  destruct Hg as ([ev l] & Ig & E1 & E2 & E3 & P & _). cbn [fst snd] in *. unfold ReadMc.events_of_file in Ef. destruct (hf_hits f) as [hits|] eqn:Eh; [|subst; easy]. destruct Ef as (_ & I & K & _). destruct (G hits Eh) as (Ga & Gb & Ge). rewrite E3. split; [exact Ga|]. split; [exact Gb|]. specialize (K ev l Ig).
  assert (Sub : forall h, In h l <-> In h hits /\ fst h = ev). { clear -K. induction K as [|x l out P K IH|x l out P K IH]; intros h; cbn [In]; [tauto| |]; rewrite IH; [intuition congruence|]. split; [tauto|]. intros [[<-|H] E]; [contradiction|tauto]. }
  split; [|split].
  - rewrite E2. assert (Iev : In ev (map fst hits)) by (apply I; change ev with (fst (ev, l)); now apply in_map). apply in_map_iff in Iev. destruct Iev as (h & Eh' & Hh). assert (X : In h l) by now apply Sub. destruct l; [easy|discriminate].
  - intros h Hh. rewrite E2 in Hh. apply in_map_iff in Hh. destruct Hh as (x & <- & Hx). apply Ge. now apply Sub.
  - assert (0 <= inject_Z (Z.abs ev))%Q by (change 0%Q with (inject_Z 0); rewrite <- Zle_Qle; lia). apply Qnot_lt_le. intros N. nra.
Qed.

Section Run.
  Variables (sqrtQ emitted : Q -> Q) (s1_lt : list Q -> list Q -> list Q -> result (list (list Q))) (s1_sensors : nat) (p : physics) (lt_pmt lt_sipm : light_table) (ACTIVE BUFFER : nat).
  Variables (pmt_db sipm_db : list nat) (rn : nat -> det_draws).
  Hypothesis square_root : forall q, (0 <= sqrtQ q)%Q.
  Hypothesis square_root0 : forall q, (q == 0 -> sqrtQ q == 0)%Q.
  Hypothesis emission_ok : emission emitted.
  Hypothesis phys : (0 < ws p /\ 0 < wi p /\ 0 < drift_v p /\ 0 <= trans p /\ 0 <= longi p /\ 0 < el_dv p)%Q.
  Hypotheses (table_pmt : good_table lt_pmt) (table_sipm : good_table lt_sipm).
  Hypothesis same_pmts : s1_sensors = num_sensors lt_pmt.
  Hypothesis table_s1 : forall hits, exists values, s1_lt (map hx hits) (map hy hits) (map hz hits) = Ok values /\ len values = len hits /\ forall row q, In row values -> In q row -> (0 <= q)%Q.
  Hypotheses (all_pmts : len pmt_db = num_sensors lt_pmt) (all_sipms : len sipm_db = num_sensors lt_sipm).
  Notation energetic c := (fun ie : nat * ditem => energetic ACTIVE c (snd ie)).
  Notation lit c := (fun ie : nat * ditem => lit sqrtQ p ACTIVE c (rn (fst ie)) (snd ie)).
  Notation simulated k c := (fun (ie : nat * ditem) rows => simulated sqrtQ emitted s1_lt p lt_pmt lt_sipm ACTIVE BUFFER k c (rn (fst ie)) (snd ie) rows).
  Notation all := (detsim_all sqrtQ emitted s1_lt s1_sensors p lt_pmt lt_sipm ACTIVE BUFFER pmt_db sipm_db rn).
  Notation number := (fun ie : nat * ditem => di_event (snd ie)).

  Section Events.
  Variables (c : bcfg) (r k M : nat).
  Hypothesis cfg : good_cfg c r k.
  Hypothesis whole_time : (max_time c == qn M * pmt_wid c)%Q.
  Definition ready (i : nat) (e : ditem) : Prop :=
    ((exists a, volume (di_names e) ACTIVE a) /\ (exists b, volume (di_names e) BUFFER b) /\ di_hits e <> [] /\ (forall h, In h (di_hits e) -> 0 <= he h)%Q /\ (0 <= di_time e)%Q) /\ draws_fit sqrtQ p ACTIVE c (rn i) e.
  Lemma run_grows_det evs : forall o, (forall j e, nth_error evs j = Some e -> ready (dt_in o + j) e) ->
    let ievs := combine (seq (dt_in o) (len evs)) evs in
    exists o' rowss, all c evs o = Ok o' /\ Forall2 (simulated k c) ievs rowss /\ Forall2 (fun ie rows => in_range c (as_sim (snd ie)) rows) ievs rowss /\ dt_rows o' = dt_rows o ++ List.concat rowss /\
      (exists act, dt_active o' = dt_active o ++ act /\ Forall2 (flagged number (energetic c)) ievs act) /\
      (exists warm dark, ReadSpec.kept (energetic c) ievs warm /\ dt_dark o' = dt_dark o ++ dark /\ Forall2 (flagged number (lit c)) warm dark) /\
      (exists seen sig, ReadSpec.kept (fun x => energetic c (fst x) /\ lit c (fst x)) (combine ievs rowss) seen /\ dt_signal o' = dt_signal o ++ sig /\ Forall2 (flagged (fun x => number (fst x)) (fun x => snd x <> [])) seen sig) /\
      (exists written, ReadSpec.kept (fun x => snd x <> []) (combine ievs rowss) written /\ dt_numbers o' = dt_numbers o ++ map (fun x => number (fst x)) written) /\ dt_in o' = dt_in o + len evs.
  Proof using All.
    induction evs as [|e evs IH]; intros o Hok; cbv zeta.
    { exists o, []. cbn. rewrite !app_nil_r, !Nat.add_0_r. split; [reflexivity|]. do 2 (split; [constructor|]). split; [reflexivity|]. split; [exists []; rewrite app_nil_r; split; constructor|]. split; [exists [], []; rewrite app_nil_r; repeat split; constructor|]. split; [exists [], []; rewrite app_nil_r; repeat split; constructor|]. split; [exists []; rewrite app_nil_r; split; constructor|reflexivity]. }
    destruct (Hok 0 e eq_refl) as (((a & Va) & (b & Vb) & Ne & Pe & Pt) & Fit). rewrite Nat.add_0_r in Fit.
    destruct (event_simulated sqrtQ emitted s1_lt s1_sensors p lt_pmt lt_sipm ACTIVE BUFFER pmt_db sipm_db c r k M square_root square_root0 emission_ok cfg whole_time phys table_pmt table_sipm same_pmts table_s1 all_pmts all_sipms (rn (dt_in o)) e a b Va Vb Ne Pe Pt Fit) as (rows & Sim & Rng & Cases).
    cbn [detsim_all len seq combine]. destruct Cases as [(N & -> & ->)|[(En & N & -> & ->)|(En & L & out & -> & St)]]; cbn [rbind].
    - match goal with |- context [detsim_all _ _ _ _ _ _ _ _ _ _ _ _ _ evs ?o1] => destruct (IH o1) as (o' & rowss & A0 & A1 & A2 & A3 & (act & A4 & A5) & (warm & dark & A6 & A7 & A8) & (seen & sig & A9 & A10 & A11) & (written & A12 & A13) & A14) end.
      { cbn [dt_in]. intros j x Hj. replace (S (dt_in o) + j) with (dt_in o + S j) by lia. now apply Hok. }
      cbn [dt_active dt_dark dt_signal dt_rows dt_numbers dt_in] in *. exists o', ([] :: rowss). split; [exact A0|]. split; [now constructor|]. split; [now constructor|]. split; [exact A3|]. cbn [combine].
      split; [exists ((di_event e, false) :: act); rewrite <- app_assoc in A4; split; [exact A4|]; constructor; [|exact A5]; split; [reflexivity|]; split; [discriminate|intros X; contradiction]|].
      split; [exists warm, dark; split; [apply ReadSpec.kp_no; [exact N|exact A6]|]; now split|]. split; [exists seen, sig; split; [apply ReadSpec.kp_no; [intros [X _]; contradiction|exact A9]|]; now split|].
      split; [exists written; split; [apply ReadSpec.kp_no; [intros X; now apply X|exact A12]|exact A13]|]. lia.
    - match goal with |- context [detsim_all _ _ _ _ _ _ _ _ _ _ _ _ _ evs ?o1] => destruct (IH o1) as (o' & rowss & A0 & A1 & A2 & A3 & (act & A4 & A5) & (warm & dark & A6 & A7 & A8) & (seen & sig & A9 & A10 & A11) & (written & A12 & A13) & A14) end.
      { cbn [dt_in]. intros j x Hj. replace (S (dt_in o) + j) with (dt_in o + S j) by lia. now apply Hok. }
      cbn [dt_active dt_dark dt_signal dt_rows dt_numbers dt_in] in *. exists o', ([] :: rowss). split; [exact A0|]. split; [now constructor|]. split; [now constructor|]. split; [exact A3|]. cbn [combine].
      split; [exists ((di_event e, true) :: act); rewrite <- app_assoc in A4; split; [exact A4|]; constructor; [|exact A5]; split; [reflexivity|]; split; [intros _; exact En|reflexivity]|].
      split; [exists ((dt_in o, e) :: warm), ((di_event e, false) :: dark); rewrite <- app_assoc in A7; split; [apply ReadSpec.kp_yes; [exact En|exact A6]|]; split; [exact A7|]; constructor; [|exact A8]; split; [reflexivity|]; split; [discriminate|intros X; contradiction]|].
      split; [exists seen, sig; split; [apply ReadSpec.kp_no; [intros [_ X]; contradiction|exact A9]|]; now split|].
      split; [exists written; split; [apply ReadSpec.kp_no; [intros X; now apply X|exact A12]|exact A13]|]. lia.
    - rewrite St. cbn [rbind]. pose proof (Forall2_len _ _ _ (rmap_forall2 _ _ _ St)) as Lo.
      match goal with |- context [detsim_all _ _ _ _ _ _ _ _ _ _ _ _ _ evs ?o1] => destruct (IH o1) as (o' & rowss & A0 & A1 & A2 & A3 & (act & A4 & A5) & (warm & dark & A6 & A7 & A8) & (seen & sig & A9 & A10 & A11) & (written & A12 & A13) & A14) end.
      { cbn [dt_in]. intros j x Hj. replace (S (dt_in o) + j) with (dt_in o + S j) by lia. now apply Hok. }
      cbn [dt_active dt_dark dt_signal dt_rows dt_numbers dt_in] in *. exists o', (rows :: rowss). split; [exact A0|]. split; [now constructor|]. split; [now constructor|]. split; [cbn [List.concat]; now rewrite app_assoc|]. cbn [combine].
      split; [exists ((di_event e, true) :: act); rewrite <- app_assoc in A4; split; [exact A4|]; constructor; [|exact A5]; split; [reflexivity|]; split; [intros _; exact En|reflexivity]|].
      split; [exists ((dt_in o, e) :: warm), ((di_event e, true) :: dark); rewrite <- app_assoc in A7; split; [apply ReadSpec.kp_yes; [exact En|exact A6]|]; split; [exact A7|]; constructor; [|exact A8]; split; [reflexivity|]; split; [intros _; exact L|reflexivity]|].
      split.
      { exists (((dt_in o, e), rows) :: seen), ((di_event e, match out with [] => false | _ => true end) :: sig). rewrite <- app_assoc in A10. split; [apply ReadSpec.kp_yes; [split; [exact En|exact L]|exact A9]|]. split; [exact A10|]. constructor; [|exact A11]. split; [reflexivity|]. cbn [snd]. destruct out, rows; try discriminate; split; congruence. }
      split; [|lia]. destruct out as [|o1 out].
      + destruct rows; [|discriminate]. exists written. split; [apply ReadSpec.kp_no; [intros X; now apply X|exact A12]|]. now rewrite app_nil_r in A13.
      + destruct rows as [|r1 rows]; [discriminate|]. exists (((dt_in o, e), r1 :: rows) :: written). split; [apply ReadSpec.kp_yes; [discriminate|exact A12]|]. rewrite A13, <- app_assoc. reflexivity.
  Qed.
  End Events.

  Variables (rate rate0 : Q) (draw : nat -> Q).
  Hypothesis Hr : ReadMc.effective_rate rate rate0.
  Hypothesis Hd : forall n, (0 <= draw n /\ draw n < 1)%Q.
  Notation run := (detsim_run sqrtQ emitted s1_lt s1_sensors p lt_pmt lt_sipm ACTIVE BUFFER pmt_db sipm_db rn).

  (** all the events of the files, in order: the rows of their triggers, the filters and the counts *)
  Theorem C115_detsim mus b pw sw files r k M : whole mus (cf_max b) -> let c := readout b (longest b) pw sw in good_cfg c r k -> (longest b == qn M * pw)%Q -> (forall f, In f files -> good_hits ACTIVE BUFFER f) ->
    exists evs parts, evs = List.concat parts /\ Forall2 (from_file rate0) files parts /\
      let ievs := combine (seq 0 (len evs)) evs in
      ((forall i e, nth_error evs i = Some e -> draws_fit sqrtQ p ACTIVE c (rn i) e) ->
       exists o rowss, run mus b pw sw rate draw files = Ok o /\ Forall2 (simulated k c) ievs rowss /\ dt_rows o = List.concat rowss /\
         Forall2 (flagged number (energetic c)) ievs (dt_active o) /\
         (exists warm, ReadSpec.kept (energetic c) ievs warm /\ Forall2 (flagged number (lit c)) warm (dt_dark o)) /\
         (exists seen, ReadSpec.kept (fun x => energetic c (fst x) /\ lit c (fst x)) (combine ievs rowss) seen /\ Forall2 (flagged (fun x => number (fst x)) (fun x => snd x <> [])) seen (dt_signal o)) /\
         (exists written, ReadSpec.kept (fun x => snd x <> []) (combine ievs rowss) written /\ dt_numbers o = map (fun x => number (fst x)) written) /\
         dt_in o = len evs /\ (NoDup (map di_event evs) -> NoDup (map br_event (dt_rows o))) /\ Forall (fun row => br_nexus row = (br_event row / Qceiling (max_time c / buffer_len c))%Z) (dt_rows o)).
  Proof using All.
    intros Hw c Gc Ht Hg. destruct (items_of rate rate0 draw files Hr Hd) as (parts & Ei & Fp). exists (List.concat parts), parts. split; [reflexivity|]. split; [exact Fp|]. cbv zeta. intros Hfit.
    pose proof (ReadMc.safe_rate_spec _ _ Hr) as [_ R0].
    assert (Hev : forall j e, nth_error (List.concat parts) j = Some e -> ready c (dt_in nothing_simulated + j) e).
    { intros j e Hj. split; [|now apply Hfit]. apply nth_error_In, in_concat in Hj. destruct Hj as (part & Hpart & He). assert (X : exists f, In f files /\ from_file rate0 f part). { clear -Fp Hpart. induction Fp as [|f x files parts H F IH]; [easy|]. destruct Hpart as [<-|Hp]; [exists f; split; [now left|exact H]|]. destruct (IH Hp) as (f' & I & H'). exists f'. split; [now right|exact H']. }
      destruct X as (f & If & Ff). exact (file_event rate0 f part e ACTIVE BUFFER R0 (Hg f If) Ff He). }
    destruct (run_grows_det c r k M Gc Ht (List.concat parts) nothing_simulated Hev) as (o & rowss & A0 & A1 & A2 & A3 & (act & A4 & A5) & (warm & dark & A6 & A7 & A8) & (seen & sig & A9 & A10 & A11) & (written & A12 & A13) & A14).
    cbn [nothing_simulated dt_active dt_dark dt_signal dt_rows dt_numbers dt_in app Nat.add] in *. exists o, rowss. split; [unfold detsim_run; rewrite (time_checked mus b Hw); cbn [rbind]; rewrite Ei; exact A0|]. split; [exact A1|]. split; [exact A3|]. split; [now rewrite A4|]. split; [exists warm; rewrite A7; now split|].
    split; [exists seen; rewrite A10; now split|]. split; [exists written; now split|]. split; [exact A14|]. rewrite A3.
    assert (A2' : Forall2 (in_range c) (map as_sim (List.concat parts)) rowss). { revert A2. clear. generalize 0. revert rowss. induction (List.concat parts) as [|e l IH]; intros rowss n F; cbn [len seq combine map] in *; inversion F; subst; constructor; [assumption|]. eapply IH. eassumption. }
    split.
    - intros Nd. apply (numbers_differ c r k Gc _ rowss A2'). rewrite map_map. exact Nd.
    - assert (Mx : (0 < max_subevt c)%Z) by (pose proof (max_subevt_pos c k (gc_pw _ _ _ Gc) (gc_k _ _ _ Gc) (gc_len _ _ _ Gc) (gc_max _ _ _ Gc)); lia).
      revert A2' Mx. clear. induction 1 as [|e rows evs rowss [H _] F IH]; intros Mx; [constructor|]. cbn [List.concat]. apply Forall_app. split; [|now apply IH]. eapply Forall_impl; [|exact H]. intros row [E B]. fold (max_subevt c). rewrite E. apply Z.div_unique with (br_event row - sim_evt e * max_subevt c)%Z; lia.
  Qed.

  (** a longest time that is not a whole number of microseconds *)
  Theorem C115_fractional_time mus b pw sw files : ~ whole mus (cf_max b) -> run mus b pw sw rate draw files = Err ValueError.
  Proof using.
    intros Hw. unfold detsim_run, check_max_time. destruct (Qeqb_spec (cf_max b / mus) (inject_Z (Qfloor (cf_max b / mus)))) as [E|N]; [|reflexivity]. exfalso. apply Hw. now exists (Qfloor (cf_max b / mus)).
  Qed.
End Run.
Print Assumptions C115_detsim.
Print Assumptions C115_fractional_time.

(** the file has one event for each row; one without rows cannot be read *)
Theorem C115_read run o name : wf_from_files (fun _ => detsim_file run o) [name] = match dt_rows o with [] => ([], Some IndexError) | rows => (map (as_event run) rows, None) end.
Proof. exact (C114_read run {| bt_detected := dt_active o; bt_signal := dt_signal o; bt_rows := dt_rows o; bt_numbers := dt_numbers o; bt_in := dt_in o; bt_resp := 0 |} name). Qed.
Print Assumptions C115_read.

(** two files, one of them without hits: an event with hits in the active volume, in the buffer, elsewhere and late; one with hits
    only elsewhere; one that gives no photons *)
Definition det_draw (s b : nat) (q : Q) : nat := Nat.min (Z.to_nat (Qfloor q)) 100.
Definition det_rn (i : nat) : det_draws :=
  {| dd_poisson := fun _ => 2; dd_gauss := fun _ => 0%Q; dd_decay := fun _ _ => 10%Q; dd_x := fun _ => 0%Q; dd_y := fun _ => 0%Q; dd_z := fun _ => 0%Q; dd_ph := fun _ => if i =? 2 then (-2)%Q else 0%Q;
     dd_scint := fun _ q => Z.to_nat (Qfloor q); dd_s1 := det_draw; dd_s2 := det_draw; dd_si := det_draw |}.
Definition det_hits : list (Z * mchit) := (8%Z, {| hx := 0; hy := 0; hz := 1; he := 9; htime := 4; hlabel := 3 |}) :: (9%Z, {| hx := 1; hy := 0; hz := 3; he := 3; htime := 5; hlabel := 1 |}) :: map (pair 3%Z) ev_hits.
Definition det_files : list hfile := [{| hf_hits := None; hf_names := [] |}; {| hf_hits := Some det_hits; hf_names := [(7, 1); (8, 2)] |}].
Definition det_conf : bconf := {| cf_buffer := 4; cf_max := 12; cf_pre := 2; cf_thr := 1 # 2 |}.
Definition det_sqrt (q : Q) : Q := if Qeqb q 0 then 0%Q else 1%Q.
Definition det_run := detsim_run det_sqrt S1Props.ramp ev_s1 2 ev_physics ev_pmts ev_sipms 7 8 [0; 2] [N.to_nat 1000] det_rn 1 det_conf 1 2 (1 # 100) (fun _ => 0%Q).
Example C115_ex : match det_run det_files with
  | Ok o => dt_active o = [(3, true); (8, false); (9, true)]%Z /\ dt_dark o = [(3, true); (9, false)]%Z /\ dt_signal o = [(3, true)]%Z /\ dt_numbers o = [3%Z] /\ dt_in o = 3 /\
            map (fun r => (br_event r, br_time r, br_nexus r, br_pmt r, br_sipm r)) (dt_rows o) = [(9, 300, 3, [[0; 0; 0; 1]; [0; 0; 1; 2]], [[0; 0]])]%Z
  | Err _ => False end.
Proof. vm_compute. repeat split. Qed.
(** the three events *)
Definition det_events : list ditem :=
  [{| di_event := 3; di_time := 300; di_hits := ev_hits; di_names := [(7, 1); (8, 2)] |}; {| di_event := 8; di_time := 800; di_hits := [{| hx := 0; hy := 0; hz := 1; he := 9; htime := 4; hlabel := 3 |}]; di_names := [(7, 1); (8, 2)] |};
   {| di_event := 9; di_time := 900; di_hits := [{| hx := 1; hy := 0; hz := 3; he := 3; htime := 5; hlabel := 1 |}]; di_names := [(7, 1); (8, 2)] |}].
Lemma det_volumes : volume [(7, 1); (8, 2)] 7 1 /\ volume [(7, 1); (8, 2)] 8 2.
Proof. split; (split; [intros x [<-|[<-|[]]]; cbn; congruence|]); [exists (7, 1)|exists (8, 2)]; cbn; tauto. Qed.
Lemma det_fit i e : nth_error det_events i = Some e -> draws_fit det_sqrt ev_physics 7 (readout det_conf (longest det_conf) 1 2) (det_rn i) e.
Proof.
  intros Hi. assert (Bd : forall s b q, (Z.of_nat (det_draw s b q) <= 100)%Z) by (intros; unfold det_draw; lia). split; [|split; [intros s b q q'; cbn; pose proof (Bd s b q); pose proof (Bd s b q'); lia|intros s b q; cbn; pose proof (Bd s b q); lia]].
  intros hits els dz Hh El. assert (V : Forall2 (volume [(7, 1); (8, 2)]) [7] [1]) by (constructor; [apply det_volumes|constructor]).
  assert (F : forall t, first_time (di_hits e) t -> di_names e = [(7, 1); (8, 2)] -> hits = in_volumes [1] (in_time 12 t (di_hits e))) by (intros t Ht En; apply (hits_in_one _ _ _ _ _ Hh); exists t, [1]; rewrite En; split; [exact Ht|]; split; [exact V|reflexivity]).
  destruct i as [|[|[|[|i]]]]; try discriminate; injection Hi as <-.
  - assert (E : hits = in_volumes [1] (in_time 12 4 ev_hits)) by (apply F; [split; [eexists; split; [right; right; left; reflexivity|reflexivity]|intros h [<-|[<-|[<-|[<-|[]]]]]; discriminate]|reflexivity]). subst hits. vm_compute in El. injection El as <- <-. split; [intros z [<-|[<-|[]]]; discriminate|intros x [<-|[<-|[]]]; discriminate].
  - assert (E : hits = in_volumes [1] (in_time 12 4 [{| hx := 0; hy := 0; hz := 1; he := 9; htime := 4; hlabel := 3 |}])) by (apply F; [split; [eexists; split; [left; reflexivity|reflexivity]|intros h [<-|[]]; discriminate]|reflexivity]). subst hits. vm_compute in El. first [discriminate|injection El as <- <-; split; easy].
  - assert (E : hits = in_volumes [1] (in_time 12 5 [{| hx := 1; hy := 0; hz := 3; he := 3; htime := 5; hlabel := 1 |}])) by (apply F; [split; [eexists; split; [left; reflexivity|reflexivity]|intros h [<-|[]]; discriminate]|reflexivity]). subst hits. vm_compute in El. injection El as <- <-. split; [intros z [<-|[<-|[]]]; discriminate|intros x [<-|[<-|[]]]; discriminate].
Qed.
Example C115_hypotheses : (forall q, 0 <= det_sqrt q)%Q /\ (forall q, q == 0 -> det_sqrt q == 0)%Q /\ ReadMc.effective_rate (1 # 100) (1 # 100) /\ whole 1 (cf_max det_conf) /\
  good_cfg (readout det_conf (longest det_conf) 1 2) 2 4 /\ (longest det_conf == qn 12 * 1)%Q /\ (forall f, In f det_files -> good_hits 7 8 f) /\
  len [0; 2] = num_sensors ev_pmts /\ len [N.to_nat 1000] = num_sensors ev_sipms /\ det_items (1 # 100) (fun _ => 0%Q) det_files = map (fun e => e) det_events /\ NoDup (map di_event det_events).
Proof.
  split; [intros q; unfold det_sqrt; destruct (Qeqb q 0); discriminate|]. split; [intros q H; unfold det_sqrt; destruct (Qeqb_spec q 0); [reflexivity|contradiction]|]. split; [right; split; [discriminate|reflexivity]|]. split; [exists 12%Z; reflexivity|].
  split; [split; try lia; try reflexivity; apply Qle_bool_iff; reflexivity|]. split; [reflexivity|]. split.
  { intros f [<-|[<-|[]]] hits E; [discriminate|]. injection E as <-. split; [exists 1; apply det_volumes|]. split; [exists 2; apply det_volumes|]. intros h Hh. cbn in Hh. repeat (destruct Hh as [<-|Hh]; [discriminate|]). easy. }
  split; [reflexivity|]. split; [reflexivity|]. split; [vm_compute; reflexivity|]. repeat constructor; cbn; intuition discriminate.
Qed.
Print Assumptions C115_hypotheses.
