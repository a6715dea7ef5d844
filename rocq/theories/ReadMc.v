(** C72: the items read from simulation files *)
From Coq Require Import String Sorted.
From Verif Require Import Base Arrays PeaksModel ConfigModel McModel McSpec McProps XyProps BuffersEvent ReadModel ReadSpec ReadProps.
Local Open Scope Q_scope.
Notation concat := List.concat.
Notation length := List.length.

(** ---------- times ---------- *)
(** the rate that is used instead of one that is not positive *)
Definition effective_rate (rate r : Q) : Prop := (rate == 0 /\ r == 1 # 2000000000) \/ (~ rate == 0 /\ r == Qabs rate).

Lemma safe_rate_spec rate r : effective_rate rate r -> safe_rate rate == r /\ 0 < r.
Proof.
  unfold safe_rate. intros [[E ->]|[E ->]].
  - destruct (Qeqb_spec rate 0); [|contradiction]. split; reflexivity.
  - destruct (Qeqb_spec rate 0); [contradiction|]. destruct (Qltb_spec rate 0) as [G|G].
    + split; [reflexivity|]. rewrite Qabs_neg by lra. lra.
    + rewrite Qabs_pos by lra. split; [reflexivity|]. apply Qle_lteq in G. destruct G as [G|G]; [assumption|]. now destruct E.
Qed.
Lemma timestamp_in_period rate r ev u : effective_rate rate r -> 0 <= u -> u < 1 -> in_period r ev (create_timestamp rate ev u).
Proof.
  intros H U1 U2. destruct (safe_rate_spec rate r H) as [E P]. unfold create_timestamp, in_period. cbv zeta. rewrite E.
  rewrite Qabs_Qmult. assert (A : Qabs (1 / r) == 1 / r) by (apply Qabs_pos; apply Qle_shift_div_l; lra). rewrite A.
  assert (B : Qabs (inject_Z ev) == inject_Z (Z.abs ev)) by (unfold inject_Z, Qabs; reflexivity). rewrite B.
  setoid_replace ((inject_Z (Z.abs ev) * (1 / r) + u * (1 / r)) * r) with (inject_Z (Z.abs ev) + u) by (field; lra). lra.
Qed.
(** events with increasing numbers have increasing times *)
Theorem C72_times_increase r a b t t' : 0 < r -> (0 <= a < b)%Z -> in_period r a t -> in_period r b t' -> t < t'.
Proof.
  intros P [Ha Hb] [_ H1] [H2 _]. rewrite !Z.abs_eq in * by lia. assert (inject_Z a + 1 <= inject_Z b) by (change 1 with (inject_Z 1); rewrite <- inject_Z_plus, <- Zle_Qle; lia).
  apply Qmult_lt_r with r; [assumption|]. lra.
Qed.
Print Assumptions C72_times_increase.

(** ---------- hits ---------- *)
Lemma insert_z_in a l x : In x (insert_z a l) <-> x = a \/ In x l.
Proof.
  induction l as [|b l IH]; cbn; [intuition|]. destruct (Z.eqb_spec a b) as [->|]; [cbn; intuition|]. destruct (a <? b)%Z; cbn; [intuition|]. rewrite IH. intuition.
Qed.
Lemma insert_z_sorted a l : StronglySorted Z.lt l -> StronglySorted Z.lt (insert_z a l).
Proof.
  induction 1 as [|b l S IH F]; [repeat constructor|]. cbn. destruct (Z.eqb_spec a b) as [->|N]; [now constructor|]. destruct (Z.ltb_spec a b).
  - constructor; [now constructor|]. constructor; [assumption|]. eapply Forall_impl; [|exact F]. intros; lia.
  - constructor; [assumption|]. apply Forall_forall. intros x Hx. apply insert_z_in in Hx. destruct Hx as [->|Hx]; [lia|]. rewrite Forall_forall in F. auto.
Qed.
Lemma sorted_events_spec l : StronglySorted Z.lt (sorted_events l) /\ forall x, In x (sorted_events l) <-> In x l.
Proof. induction l as [|a l [S IH]]; [split; [constructor|tauto]|]. cbn. split; [now apply insert_z_sorted|]. intros x. rewrite insert_z_in, IH. intuition. Qed.
Lemma sorted_nodup l : StronglySorted Z.lt l -> NoDup l.
Proof. induction 1 as [|a l S IH F]; constructor; [|assumption]. intros H. rewrite Forall_forall in F. specialize (F a H). lia. Qed.

Section Hits.
  Context {H : Type}.
  Variable h_event : H -> Z.

  (** the events of a file, in increasing order, with their hits in the order of the file *)
  Definition events_of_file (f : option (list H)) (part : list (Z * list H)) : Prop :=
    match f with
    | None => part = []
    | Some hits => StronglySorted Z.lt (map fst part) /\ (forall ev, In ev (map fst part) <-> In ev (map h_event hits)) /\
                   (forall ev l, In (ev, l) part -> kept (fun h => h_event h = ev) hits l) /\ Permutation hits (flat_map snd part)
    end.

  Theorem C72_simulated_hits rate r draw files : effective_rate rate r -> (forall n, 0 <= draw n /\ draw n < 1) ->
    let items := MC_hits_from_files h_event rate draw files in
    (exists parts, map (fun it => (c_event it, c_hits it)) items = concat parts /\ Forall2 events_of_file files parts) /\
    Forall (fun it => in_period r (c_event it) (c_time it)) items.
  Proof.
    intros Hr Hd. cbv zeta. unfold MC_hits_from_files. split.
    - exists (map (fun f => match f with None => [] | Some hits => mc_groups h_event hits end) files). split.
      + rewrite <- flat_map_concat_map. generalize (flat_map (fun f => match f with None => [] | Some hits => mc_groups h_event hits end) files). intros l. unfold mapi. generalize 0%nat.
        induction l as [|[ev hs] l IH]; intros n; [reflexivity|]. cbn. now rewrite IH.
      + induction files as [|f files IH]; [constructor|]. cbn [map]. constructor; [|exact IH]. destruct f as [hits|]; [|reflexivity]. unfold events_of_file, mc_groups.
        destruct (sorted_events_spec (map h_event hits)) as [S I]. rewrite map_map. cbn [fst]. rewrite map_id. split; [assumption|]. split; [assumption|]. split.
        * intros ev l Hin. apply in_map_iff in Hin. destruct Hin as (ev' & E & _). injection E as -> <-. apply kept_filter. intros x. apply Z.eqb_eq.
        * rewrite (partition_by_key h_event (sorted_events (map h_event hits)) hits) at 1; [|now apply sorted_nodup|intros x Hx; apply I; now apply in_map].
          match goal with |- Permutation ?a ?b => assert (E : a = b); [|rewrite E; reflexivity] end. now rewrite !flat_map_concat_map, map_map.
    - generalize (flat_map (fun f => match f with None => [] | Some hits => mc_groups h_event hits end) files). intros l. unfold mapi. generalize 0%nat.
      induction l as [|[ev hs] l IH]; intros n; [constructor|]. cbn. constructor; [|apply IH]. cbn [c_event c_time]. destruct (Hd n). now apply timestamp_in_period.
  Qed.
End Hits.
Print Assumptions C72_simulated_hits.

(** ---------- sensors ---------- *)
Lemma widths_one bins name w : NoDup (map fst bins) -> In (name, w) bins -> widths_of bins name = [Some w].
Proof.
  intros N Hin. unfold widths_of. assert (E : filter (fun '(n, _) => String.eqb n name) bins = [(name, w)]).
  { induction bins as [|[n w'] bins IH]; [easy|]. inversion N as [|? ? Hn N']; subst. cbn. destruct Hin as [E|Hin].
    - injection E as -> ->. rewrite String.eqb_refl. f_equal. apply filter_none. intros [m w'] Hm. apply String.eqb_neq. intros ->. apply Hn. now apply (in_map fst) in Hm.
    - destruct (String.eqb_spec n name) as [->|_]; [exfalso; apply Hn; now apply (in_map fst) in Hin|auto]. }
  now rewrite E.
Qed.
Lemma one_position {B} pos id name (g : string -> list B) : NoDup (map fst pos) -> In (id, name) pos ->
  flat_map (fun '(i, n) => if Z.eqb i id then g n else []) pos = g name.
Proof.
  induction pos as [|[i n] pos IH]; intros N Hin; [easy|]. inversion N as [|? ? Hn N']; subst. cbn. destruct Hin as [E|Hin].
  - injection E as -> ->. rewrite Z.eqb_refl. assert (E : flat_map (fun '(i, n) => if Z.eqb i id then g n else []) pos = []); [|rewrite E; apply app_nil_r].
    clear -Hn. cbn in Hn. induction pos as [|[j m] pos IH]; [reflexivity|]. cbn in *. destruct (Z.eqb_spec j id); [subst; exfalso; tauto|]. apply IH. tauto.
  - destruct (Z.eqb_spec i id) as [->|_]; [exfalso; apply Hn; now apply (in_map fst) in Hin|]. cbn. auto.
Qed.

(** every sensor that has light is listed once, with a type that has one bin width *)
Definition known_sensors (f : mcfile) : Prop :=
  NoDup (map fst (m_pos f)) /\ NoDup (map fst (m_bins f)) /\
  forall r, In r (m_resp f) -> exists name w, In (r_sensor r, name) (m_pos f) /\ In (name, w) (m_bins f).
Lemma all_timed f : known_sensors f -> Forall2 (timed (m_bins f) (m_pos f)) (m_resp f) (convert_timebin_to_time (m_resp f) (m_bins f) (m_pos f)).
Proof.
  intros (N1 & N2 & Hk). unfold convert_timebin_to_time. induction (m_resp f) as [|r l IH]; [constructor|]. cbn [flat_map].
  destruct (Hk r (or_introl eq_refl)) as (name & w & Hp & Hb).
  pose proof (one_position (m_pos f) (r_sensor r) name (fun n => map (fun w => {| s_event := r_event r; s_sensor := r_sensor r; s_name := n; s_time := option_map (fun w => w * inject_Z (r_bin r)) w; s_charge := r_charge r |}) (widths_of (m_bins f) n)) N1 Hp) as E.
  cbv beta in E. rewrite E, (widths_one _ _ _ N2 Hb). cbn [map option_map app]. constructor; [|apply IH; intros; apply Hk; now right].
  unfold timed. cbn. do 3 (split; [reflexivity|]). exists name, w. auto.
Qed.

Section Sensors.
  Variable is_pmt_name : string -> bool.
  Variable pmt_ids : list Z.
  (** the sensors whose type is a kind of PMT are the PMTs of the database *)
  Definition pmts_known (f : mcfile) : Prop := forall id name, In (id, name) (m_pos f) -> is_pmt_name name = true -> In id pmt_ids.

  (** an item for each event of the file, that has the light of the event in the PMTs and, apart from it, that in the other sensors *)
  Definition sensors_of_event (rows : list stime) (ev : Z) (it : mcsensors) : Prop :=
    e_event it = ev /\ kept (fun s => s_event s = ev /\ In (s_sensor s) pmt_ids) rows (e_pmt it) /\ kept (fun s => s_event s = ev /\ ~ In (s_sensor s) pmt_ids) rows (e_sipm it).

  Lemma isin_spec id : existsb (Z.eqb id) pmt_ids = true <-> In id pmt_ids.
  Proof. rewrite existsb_exists. split; [intros (x & Hx & E); apply Z.eqb_eq in E; now subst|intros Hx; exists id; split; [assumption|apply Z.eqb_refl]]. Qed.

  Theorem C72_simulated_sensors rate r draw files : effective_rate rate r -> (forall n, 0 <= draw n /\ draw n < 1) ->
    (forall f, In f files -> known_sensors f /\ pmts_known f) ->
    exists items parts, mcsensors_from_file is_pmt_name pmt_ids rate draw files = (items, None) /\ items = concat parts /\
      Forall (fun it => in_period r (e_event it) (e_time it)) items /\
      Forall2 (fun f part => exists rows, Forall2 (timed (m_bins f) (m_pos f)) (m_resp f) rows /\ Forall2 (sensors_of_event rows) (m_events f) part) files parts.
  Proof.
    intros Hr Hd Hf. unfold mcsensors_from_file.
    destruct (over_files_ok (sensors_of_file is_pmt_name pmt_ids)
       (fun f part => exists rows, Forall2 (timed (m_bins f) (m_pos f)) (m_resp f) rows /\
          Forall2 (fun ev p => fst p = ev /\ kept (fun s => s_event s = ev /\ In (s_sensor s) pmt_ids) rows (fst (snd p)) /\ kept (fun s => s_event s = ev /\ ~ In (s_sensor s) pmt_ids) rows (snd (snd p))) (m_events f) part) files) as (parts & E & F).
    { intros f Hin. destruct (Hf f Hin) as [Hk Hp]. unfold sensors_of_file.
      assert (A : forallb (fun '(id, name) => negb (is_pmt_name name) || existsb (Z.eqb id) pmt_ids) (m_pos f) = true).
      { apply forallb_forall. intros [id name] Hi. destruct (is_pmt_name name) eqn:En; [|reflexivity]. cbn. apply isin_spec. eapply Hp; eassumption. }
      rewrite A. eexists. split; [reflexivity|]. eexists. split; [now apply all_timed|].
      induction (m_events f) as [|ev l IH]; [constructor|]. cbn [map]. constructor; [|exact IH]. cbn [fst snd]. split; [reflexivity|]. rewrite !filter_filter.
      split; apply kept_filter; intros s; rewrite andb_true_iff, Z.eqb_eq; [now rewrite isin_spec|]. rewrite negb_true_iff. rewrite <- isin_spec. destruct (existsb (Z.eqb (s_sensor s)) pmt_ids); intuition congruence. }
    rewrite E. eexists. 
    assert (G : forall n, exists parts', mapi_from n (fun n '(ev, (p, s)) => {| e_event := ev; e_time := create_timestamp rate ev (draw n); e_pmt := p; e_sipm := s |}) (concat parts) = concat parts' /\
      Forall2 (fun f part => exists rows, Forall2 (timed (m_bins f) (m_pos f)) (m_resp f) rows /\ Forall2 (sensors_of_event rows) (m_events f) part) files parts').
    { clear E Hf. induction F as [|f part files parts (rows & F1 & F2) F IH]; intros n; [exists []; split; [reflexivity|constructor]|].
      destruct (IH (n + length part)%nat) as (parts' & E' & F').
      exists (mapi_from n (fun n '(ev, (p, s)) => {| e_event := ev; e_time := create_timestamp rate ev (draw n); e_pmt := p; e_sipm := s |}) part :: parts'). cbn [List.concat]. rewrite <- E'. split.
      - clear. revert n. induction part as [|[ev [p s]] part IH]; intros n; [cbn; now rewrite Nat.add_0_r|]. cbn. rewrite IH. do 3 f_equal. lia.
      - constructor; [|assumption]. exists rows. split; [assumption|]. clear -F2. revert n. induction F2 as [|ev [ev' [p s]] l m (E1 & E2 & E3) F2 IH]; intros n; [constructor|]. cbn in *. constructor; [|apply IH]. split; [assumption|]. split; assumption. }
    destruct (G 0%nat) as (parts' & E' & F'). exists parts'. split; [reflexivity|]. split; [exact E'|]. split; [|assumption].
    unfold mapi. generalize 0%nat. generalize (concat parts). induction l as [|[ev [p s]] l IH]; intros n; [constructor|]. cbn. constructor; [|apply IH]. cbn. destruct (Hd n). now apply timestamp_in_period.
  Qed.

  (** a PMT that is not in the database *)
  Theorem C72_unknown_pmt rate draw f files id name : In (id, name) (m_pos f) -> is_pmt_name name = true -> ~ In id pmt_ids ->
    mcsensors_from_file is_pmt_name pmt_ids rate draw (f :: files) = ([], Some SensorIDMismatch).
  Proof.
    intros Hi Hn Hid. unfold mcsensors_from_file. cbn [over_files]. unfold sensors_of_file.
    destruct (forallb _ (m_pos f)) eqn:E; [|reflexivity]. rewrite forallb_forall in E. specialize (E _ Hi). cbn in E. rewrite Hn in E. cbn in E. apply isin_spec in E. contradiction.
  Qed.
End Sensors.
Print Assumptions C72_simulated_sensors.
Print Assumptions C72_unknown_pmt.

(** ---------- examples and counterexamples ---------- *)
Definition ex_pos : list (Z * string) := [(0%Z, "PmtR11410"%string); (1000%Z, "SiPM"%string)].
Definition ex_bins : list (string * Q) := [("SiPM"%string, 1000); ("PmtR11410"%string, 100)].
Definition ex_resp : list sresp := [ {| r_event := 3; r_sensor := 1000; r_bin := 2; r_charge := 7 |}; {| r_event := 3; r_sensor := 0; r_bin := 5; r_charge := 1 |} ].
Definition ex_file : mcfile := {| m_resp := ex_resp; m_bins := ex_bins; m_pos := ex_pos; m_events := [2%Z; 3%Z] |}.
Example C72_example : known_sensors ex_file /\ pmts_known (String.eqb "PmtR11410") [0%Z] ex_file /\
  map (fun it => (e_event it, map s_time (e_pmt it), map s_time (e_sipm it))) (fst (mcsensors_from_file (String.eqb "PmtR11410") [0%Z] 1 (fun _ => 0) [ex_file])) =
  [(2%Z, [], []); (3%Z, [Some (100 * 5)], [Some (1000 * 2)])].
Proof.
  split; [|split; [|reflexivity]].
  - split; [repeat constructor; cbn; intuition discriminate|]. split; [repeat constructor; cbn; intuition discriminate|]. intros r [<-|[<-|[]]]; cbn; eauto 10.
  - intros id name [E|[E|[]]]; injection E as <- <-; [now left|discriminate].
Qed.
Example C72_hits_example : effective_rate (- (3)) 3 /\
  map (fun it => (c_event it, c_hits it)) (MC_hits_from_files fst (- (3)) (fun _ => 0) [Some [(5%Z, 1%nat); (2%Z, 2%nat); (5%Z, 3%nat)]; None]) = [(2%Z, [(2%Z, 2%nat)]); (5%Z, [(5%Z, 1%nat); (5%Z, 3%nat)])].
Proof. split; [right; split; [discriminate|reflexivity]|reflexivity]. Qed.

(** the light of a sensor that is not in the table of positions is lost, and that of a sensor that is there twice is doubled *)
Theorem C72_missing_refuted : exists f it, mcsensors_from_file (String.eqb "PmtR11410") [0%Z] 1 (fun _ => 0) [f] = ([it], None) /\ m_resp f <> [] /\ e_pmt it = [] /\ e_sipm it = [].
Proof. exists {| m_resp := [ {| r_event := 3; r_sensor := 1001; r_bin := 2; r_charge := 7 |} ]; m_bins := ex_bins; m_pos := ex_pos; m_events := [3%Z] |}. eexists. split; [reflexivity|]. split; [discriminate|split; reflexivity]. Qed.
Print Assumptions C72_missing_refuted.
Theorem C72_twice_refuted : exists f it, mcsensors_from_file (String.eqb "PmtR11410") [0%Z] 1 (fun _ => 0) [f] = ([it], None) /\ length (m_resp f) = 1%nat /\ length (e_sipm it) = 2%nat.
Proof. exists {| m_resp := [ {| r_event := 3; r_sensor := 1000; r_bin := 2; r_charge := 7 |} ]; m_bins := ex_bins; m_pos := (1000%Z, "SiPM"%string) :: ex_pos; m_events := [3%Z] |}. eexists. split; [reflexivity|]. split; reflexivity. Qed.
Print Assumptions C72_twice_refuted.
