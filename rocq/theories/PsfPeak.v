(** C64: the processed hits of a peak *)
From Verif Require Import Base Arrays PeaksModel PeaksProofs BuffersProofs WfmProps PmapioProofs DbModel DbProps CorrModel CorrSpec CorrProps CorrMore PsfModel PsfSpec PsfProps PsfCity PsfSplit.
Local Open Scope Q_scope.

Lemma ffill_some {A} (p : A) l : Forall (fun o => o = None \/ o = Some p) l -> ffill (Some p) l = repeat (Some p) (length l).
Proof. induction 1 as [|o l [->| ->] F IH]; cbn; [reflexivity| |]; now rewrite IH. Qed.
Lemma ffill_none {A} (p : A) l : Forall (fun o => o = None \/ o = Some p) l -> exists i m, ffill None l = repeat None i ++ repeat (Some p) m /\ (i + m = length l)%nat /\ (In (Some p) l -> (0 < m)%nat).
Proof.
  induction 1 as [|o l [->| ->] F IH]; cbn.
  - exists 0%nat, 0%nat. split; [reflexivity|]. split; [reflexivity|intros []].
  - destruct IH as (i & m & -> & E & P). exists (S i), m. split; [reflexivity|]. split; [lia|]. intros [K|K]; [discriminate|auto].
  - exists 0%nat, (S (length l)). rewrite ffill_some by assumption. split; [reflexivity|]. split; [reflexivity|lia].
Qed.
Lemma rev_repeat' {A} (a : A) n : rev (repeat a n) = repeat a n.
Proof. induction n; cbn; [reflexivity|]. rewrite IHn. clear IHn. induction n; cbn; [reflexivity|]. now rewrite IHn. Qed.
Lemma fill_all {A} (p : A) l : Forall (fun o => o = None \/ o = Some p) l -> In (Some p) l -> bfill (ffill None l) = repeat (Some p) (length l).
Proof.
  intros F H. destruct (ffill_none p l F) as (i & m & E & L & P). specialize (P H). unfold bfill. rewrite E, rev_app_distr, !rev_repeat'. destruct m as [|m]; [lia|]. cbn [repeat app ffill]. rewrite ffill_some.
  - rewrite <- (rev_repeat' (Some p) (length l)). f_equal. rewrite <- L, app_length, !repeat_length. replace (i + S m)%nat with (S (m + i)) by lia. reflexivity.
  - apply Forall_app. split; apply Forall_forall; intros x Hx; apply repeat_spec in Hx; subst; auto.
Qed.
Lemma min_lowest l : l <> [] -> is_lowest l (minQ' l).
Proof.
  destruct l as [|x l]; [congruence|]. intros _. unfold minQ', is_lowest. revert x. induction l as [|y l IH]; intros x; cbn [fold_left]; [split; [now left|intros z [<-|[]]; lra]|].
  destruct (Qltb_spec y x) as [H|H].
  - destruct (IH y) as [I1 I2]. split; [right; assumption|]. intros z [<-|[<-|K]]; [specialize (I2 y (or_introl eq_refl)); lra|apply I2; now left|apply I2; now right].
  - destruct (IH x) as [I1 I2]. split; [destruct I1 as [I1|I1]; [left; assumption|right; right; assumption]|]. intros z [<-|[<-|K]]; [apply I2; now left|specialize (I2 x (or_introl eq_refl)); lra|apply I2; now right].
Qed.
Lemma lowest_unique l a b : is_lowest l a -> is_lowest l b -> a == b.
Proof. intros [A1 A2] [B1 B2]. specialize (A2 b B1). specialize (B2 a A1). lra. Qed.
Lemma first_some_in {A} (p : A) l : Forall (fun o => o = None \/ o = Some p) l -> first_some l = None \/ first_some l = Some p.
Proof. induction 1 as [|o l [->| ->] F IH]; cbn; auto. Qed.
Lemma first_some_some {A} (p : A) l : Forall (fun o => o = None \/ o = Some p) l -> In (Some p) l -> first_some l = Some p.
Proof. induction 1 as [|o l [->| ->] F IH]; cbn; [intros []| |reflexivity]. intros [K|K]; [discriminate|auto]. Qed.

Section Peak.
  Variables (x0 x1 y0 y1 : Q) (sensors : list (Q * Q)) (xp yp : Q).
  Variable df : list hit.
  Hypothesis NE : df <> [].
  Hypothesis Same : forall h, In h df -> hXpeak h = xp /\ hYpeak h = yp.
  Definition hit_row (h : hit) : crow := {| cX := hX h; cY := hY h; cZ := hZ h; cQ := hQ h; cpeak := Some (xp, yp) |}.
  Definition sensor_row (s : Q * Q) : crow := {| cX := fst s; cY := snd s; cZ := minQ' (map hZ df); cQ := 0; cpeak := None |}.
  Definition window : list (Q * Q) := filter (fun s => in_range (fst s) (xp - (x1 - x0) / 2) (xp + (x1 - x0) / 2) && in_range (snd s) (yp - (y1 - y0) / 2) (yp + (y1 - y0) / 2)) sensors.
  Definition rows0 : list crow := map hit_row df ++ map sensor_row window.
  Definition cell_charge (k : key) : Q := match filter (fun h => key_eqb k (hit_pos h)) df with [] => 0 | h :: _ => hQ h end.
  Lemma in_window_iff s : In s window <-> In s sensors /\ in_window x0 x1 y0 y1 xp yp s.
  Proof. unfold window, in_window. rewrite filter_In, andb_true_iff, !in_range_iff. reflexivity. Qed.
  Lemma peaks0 : Forall (fun o => o = None \/ o = Some (xp, yp)) (map cpeak rows0).
  Proof. unfold rows0. rewrite map_app, !map_map. apply Forall_app. split; apply Forall_forall; intros o Ho; apply in_map_iff in Ho; destruct Ho as (a & <- & _); cbn; auto. Qed.
  (** the first row with a position *)
  Lemma first_row_spec k : In k (map cpos rows0) -> exists c, first_row rows0 k = [c] /\ same_key k (cpos c) /\ cQ c = cell_charge k
    /\ (cpeak c = None \/ cpeak c = Some (xp, yp)) /\ ((exists h, In h df /\ same_key k (hit_pos h)) -> cpeak c = Some (xp, yp)).
  Proof.
    intros H. unfold first_row. destruct (filter (fun c => key_eqb k (cpos c)) rows0) as [|c l] eqn:F.
    - exfalso. apply in_map_iff in H. destruct H as (c & <- & H). assert (In c (filter (fun c' => key_eqb (cpos c) (cpos c')) rows0)) by (apply filter_In; split; [assumption|apply key_eqb_iff, same_refl]). rewrite F in H0. destruct H0.
    - eexists. split; [reflexivity|]. cbn [cpos cX cY cZ cQ cpeak]. assert (Hc : In c (filter (fun c => key_eqb k (cpos c)) rows0)) by (rewrite F; now left). apply filter_In in Hc. destruct Hc as [Hc1 Hc2].
      assert (Sub : Forall (fun o => o = None \/ o = Some (xp, yp)) (map cpeak (c :: l))).
      { rewrite <- F. apply Forall_forall. intros o Ho. apply in_map_iff in Ho. destruct Ho as (c' & <- & Hc'). apply filter_In in Hc'. assert (P := peaks0). rewrite Forall_forall in P. apply P. apply in_map. tauto. }
      split; [now apply key_eqb_iff|]. split; [|split; [now apply first_some_in|]].
      + unfold rows0 in F. rewrite filter_app, !filter_map_swap in F. unfold cell_charge. change (fun h => key_eqb k (cpos (hit_row h))) with (fun h => key_eqb k (hit_pos h)) in F.
        destruct (filter (fun h => key_eqb k (hit_pos h)) df) as [|h hs]; cbn [map app] in F.
        * destruct (filter _ window) as [|s ss]; [discriminate|]. cbn [map] in F. injection F as <- _. reflexivity.
        * injection F as <- _. reflexivity.
      + intros (h & Hh & Kh). apply first_some_some; [assumption|]. rewrite <- F. apply in_map_iff. exists (hit_row h). split; [reflexivity|]. apply filter_In. split; [apply in_app_iff; left; now apply in_map|]. now apply key_eqb_iff.
  Qed.
  Definition cells : list (key * Q) := map (fun k => (k, cell_charge k)) (group_keys (map cpos rows0)).
  Lemma grouped : exists cs, flat_map (first_row rows0) (group_keys (map cpos rows0)) = cs
    /\ Forall2 (fun c r => same_key (fst c) (cpos r) /\ cQ r = snd c) cells cs
    /\ Forall (fun o => o = None \/ o = Some (xp, yp)) (map cpeak cs) /\ In (Some (xp, yp)) (map cpeak cs).
  Proof.
    assert (A : forall ks, (forall k, In k ks -> In k (map cpos rows0)) -> exists cs, flat_map (first_row rows0) ks = cs
      /\ Forall2 (fun c r => same_key (fst c) (cpos r) /\ cQ r = snd c) (map (fun k => (k, cell_charge k)) ks) cs
      /\ Forall (fun o => o = None \/ o = Some (xp, yp)) (map cpeak cs) /\ ((exists k h, In k ks /\ In h df /\ same_key k (hit_pos h)) -> In (Some (xp, yp)) (map cpeak cs))).
    { induction ks as [|k ks IH]; intros H; cbn [flat_map map].
      - exists []. split; [reflexivity|]. split; [constructor|]. split; [constructor|]. intros (k & h & [] & _).
      - destruct IH as (cs & -> & F2 & FP & E); [intros; apply H; now right|]. destruct (first_row_spec k (H k (or_introl eq_refl))) as (c & -> & K & C & P & PS). exists (c :: cs). split; [reflexivity|]. split; [constructor; [now split|assumption]|]. split; [cbn; constructor; assumption|].
        intros (k' & h & [<-|Hk] & Hh & Kh); cbn; [left; apply PS; now exists h|right; apply E; now exists k', h]. }
    destruct (A (group_keys (map cpos rows0)) (group_keys_in _)) as (cs & E & F2 & FP & IN). exists cs. split; [assumption|]. split; [assumption|]. split; [assumption|]. apply IN.
    destruct df as [|h d] eqn:D; [congruence|]. destruct (group_keys_covers (map cpos rows0) (hit_pos h)) as (k' & Hk' & K').
    - unfold rows0. rewrite D. apply in_map_iff. exists (hit_row h). split; [reflexivity|]. now left.
    - exists k', h. split; [assumption|]. split; [now left|now apply same_sym].
  Qed.
  Lemma with_eq : with_empty_sensors x0 x1 y0 y1 sensors df =
    map set_peak (combine (flat_map (first_row rows0) (group_keys (map cpos rows0))) (bfill (ffill None (map cpeak (flat_map (first_row rows0) (group_keys (map cpos rows0))))))).
  Proof.
    assert (H : forall l, l = df -> match l with
      | [] => []
      | h :: _ => let rows := map (fun h => {| cX := hX h; cY := hY h; cZ := hZ h; cQ := hQ h; cpeak := Some (hXpeak h, hYpeak h) |}) df
                  ++ map sensor_row (filter (fun s => in_range (fst s) (hXpeak h - (x1 - x0) / 2) (hXpeak h + (x1 - x0) / 2) && in_range (snd s) (hYpeak h - (y1 - y0) / 2) (hYpeak h + (y1 - y0) / 2)) sensors) in
          let rows := flat_map (first_row rows) (group_keys (map cpos rows)) in map set_peak (combine rows (bfill (ffill None (map cpeak rows))))
      end = map set_peak (combine (flat_map (first_row rows0) (group_keys (map cpos rows0))) (bfill (ffill None (map cpeak (flat_map (first_row rows0) (group_keys (map cpos rows0)))))))).
    { intros l E. destruct l as [|h l]; [symmetry in E; contradiction|]. assert (Hh : hXpeak h = xp /\ hYpeak h = yp) by (apply Same; rewrite <- E; now left). destruct Hh as [-> ->].
      assert (M : map (fun h => {| cX := hX h; cY := hY h; cZ := hZ h; cQ := hQ h; cpeak := Some (hXpeak h, hYpeak h) |}) df = map hit_row df).
      { apply map_ext_in. intros a Ha. destruct (Same a Ha) as [-> ->]. reflexivity. }
      rewrite M. reflexivity. }
    exact (H df eq_refl).
  Qed.
  Lemma with_sensors : Forall2 (fun c r => same_key (fst c) (cpos r) /\ cQ r = snd c /\ cpeak r = Some (xp, yp)) cells (with_empty_sensors x0 x1 y0 y1 sensors df).
  Proof.
    rewrite with_eq. destruct grouped as (cs & -> & F2 & FP & IN). rewrite (fill_all (xp, yp)) by assumption. rewrite map_length. clear FP IN. induction F2 as [|c r l m [H1 H2] F IH]; cbn; constructor; [|assumption]. now split.
  Qed.
  Lemma total_charge : sumF cQ (with_empty_sensors x0 x1 y0 y1 sensors df) == sumF snd cells.
  Proof. assert (F := with_sensors). induction F as [|c r l m (H1 & H2 & H3) F IH]; [reflexivity|]. rewrite !sumF_cons, IH, H2. reflexivity. Qed.
  Lemma cells_distinct : ForallOrdPairs (fun a b => ~ same_key (fst a) (fst b)) cells.
  Proof. unfold cells. pose proof (group_keys_distinct (map cpos rows0)) as D. induction D as [|k l F D IH]; cbn; constructor; [|assumption]. rewrite Forall_forall in *. intros b Hb. apply in_map_iff in Hb. destruct Hb as (k' & <- & Hk'). now apply F. Qed.
  Lemma cells_positions k : (exists c, In c cells /\ same_key k (fst c)) <-> (exists h, In h df /\ same_key k (hit_pos h)) \/ (exists s z, In s sensors /\ in_window x0 x1 y0 y1 xp yp s /\ is_lowest (map hZ df) z /\ same_key k [fst s; snd s; z]).
  Proof.
    assert (LZ : is_lowest (map hZ df) (minQ' (map hZ df))) by (apply min_lowest; intros E; apply map_eq_nil in E; contradiction).
    split.
    - intros (c & Hc & K). unfold cells in Hc. apply in_map_iff in Hc. destruct Hc as (k' & <- & Hk). cbn [fst] in K. apply group_keys_in, in_map_iff in Hk. destruct Hk as (r & <- & Hr). unfold rows0 in Hr. apply in_app_iff in Hr. destruct Hr as [Hr|Hr]; apply in_map_iff in Hr; destruct Hr as (a & <- & Ha).
      + left. now exists a.
      + right. apply in_window_iff in Ha. exists a, (minQ' (map hZ df)). repeat (split; [tauto|]). exact K.
    - intros H. assert (G : exists k', In k' (map cpos rows0) /\ same_key k k').
      { destruct H as [(h & Hh & K)|(s & z & Hs & Hw & Hz & K)].
        - exists (hit_pos h). split; [|assumption]. apply in_map_iff. exists (hit_row h). split; [reflexivity|]. apply in_app_iff. left. now apply in_map.
        - exists (cpos (sensor_row s)). split; [apply in_map; apply in_app_iff; right; apply in_map, in_window_iff; now split|]. eapply same_trans; [exact K|]. unfold cpos. cbn. repeat constructor; try reflexivity. now apply (lowest_unique (map hZ df)). }
      destruct G as (k' & Hk' & K). destruct (group_keys_covers _ _ Hk') as (k2 & Hk2 & K2). exists (k2, cell_charge k2). split; [unfold cells; apply in_map_iff; now exists k2|]. cbn. eapply same_trans; eassumption.
  Qed.
  Lemma cells_charges c : In c cells -> charge_at df (fst c) (snd c).
  Proof. intros H. unfold cells in H. apply in_map_iff in H. destruct H as (k & <- & _). cbn. eexists. split; [apply picks_filter; reflexivity|]. unfold cell_charge. now destruct (filter _ df). Qed.
End Peak.

(** the rows of a peak: one per position of a hit or of a sensor in the window around the peak, with the charge at the position as a fraction of the total.
    If the total is zero the fractions are not defined (the program goes on with NaN) *)
Theorem C64_processed x0 x1 y0 y1 sensors xp yp df : df <> [] -> (forall h, In h df -> hXpeak h = xp /\ hYpeak h = yp) ->
  exists cells, peak_cells x0 x1 y0 y1 sensors xp yp df cells
  /\ (~ sumF snd cells == 0 -> exists rows, process_peak x0 x1 y0 y1 sensors df = Ok rows /\ processed_rows xp yp cells rows)
  /\ (sumF snd cells == 0 -> process_peak x0 x1 y0 y1 sensors df = Err NotModelled).
Proof.
  intros NE Same. exists (cells x0 x1 y0 y1 sensors xp yp df). split; [split; [apply cells_distinct|]; split; [intros k; now apply cells_positions|intros c; apply cells_charges]|].
  assert (F := with_sensors x0 x1 y0 y1 sensors xp yp df NE Same). assert (T := total_charge x0 x1 y0 y1 sensors xp yp df NE Same). unfold process_peak, processed_rows.
  destruct (Qeqb_spec (sumF cQ (with_empty_sensors x0 x1 y0 y1 sensors df)) 0) as [Z|Z]; (split; [intros K|intros K]); [exfalso; apply K; rewrite <- T; assumption|reflexivity| |exfalso; apply Z; rewrite T; assumption].
  set (tot := sumF cQ (with_empty_sensors x0 x1 y0 y1 sensors df)) in *. set (tot' := sumF snd (cells x0 x1 y0 y1 sensors xp yp df)) in *. clearbody tot tot'.
  induction F as [|c r l m (H1 & H2 & H3) F IH]; cbn [rmap]; [eexists; split; [reflexivity|constructor]|]. rewrite H3. destruct IH as (rows & -> & R). eexists. split; [reflexivity|]. constructor; [|assumption].
  exists (cX r), (cY r), (cZ r). cbn. split; [exact H1|]. repeat (split; [reflexivity|]). rewrite H2, T. reflexivity.
Qed.
Print Assumptions C64_processed.

(** the charges of a peak add up to one *)
Theorem C64_normalised xp yp cells rows : processed_rows xp yp cells rows -> ~ sumF snd cells == 0 -> sumF normq rows == 1.
Proof.
  unfold processed_rows. intros F NZ. assert (E : sumF normq rows == sumF snd cells / sumF snd cells); [|rewrite E; field; assumption].
  set (t := sumF snd cells) at 2. change (sumF snd cells) with t in F, NZ. clearbody t.
  induction F as [|c h l m (x & y & z & _ & _ & _ & _ & _ & H) F IH]; [unfold sumF; cbn; field; assumption|]. rewrite !sumF_cons, IH, H. field. assumption.
Qed.
Print Assumptions C64_normalised.

(** the rows of a slice are those of its peaks, each processed by itself *)
Theorem C64_peaks x0 x1 y0 y1 sensors df rows : process_hits x0 x1 y0 y1 sensors df = Ok rows -> exists peaks parts,
  ForallOrdPairs (fun p q => forall h h', In h p -> In h' q -> ~ same_key (peak h) (peak h')) peaks
  /\ (forall p, In p peaks -> p <> [] /\ forall h, In h p -> picks peak (peak h) df p)
  /\ (forall h, In h df -> exists p, In p peaks /\ In h p)
  /\ Forall2 (fun p r => process_peak x0 x1 y0 y1 sensors p = Ok r) peaks parts /\ rows = concat parts.
Proof.
  rewrite process_groups. destruct (rmap _ (groups df)) as [parts|] eqn:E; [|discriminate]. cbn. intros H. injection H as <-. exists (groups df), parts.
  assert (G : forall p, In p (groups df) -> exists k, In k (group_keys (map peak df)) /\ p = filter (fun h => key_eqb k (peak h)) df) by (intros p Hp; unfold groups in Hp; apply in_map_iff in Hp; destruct Hp as (k & <- & Hk); now exists k).
  split; [|split; [|split; [|split; [|reflexivity]]]].
  - clear E G. unfold groups. pose proof (group_keys_distinct (map peak df)) as D. unfold distinct_list in D. induction D as [|k l F D IH]; cbn [map]; [apply FOP_nil|]. apply FOP_cons; [|assumption]. rewrite Forall_forall in *. intros q Hq. apply in_map_iff in Hq. destruct Hq as (k' & <- & Hk'). intros h h' Hh Hh' K. apply filter_In in Hh, Hh'. apply (F k' Hk').
    eapply same_trans; [apply key_eqb_iff, (proj2 Hh)|]. eapply same_trans; [exact K|]. apply same_sym, key_eqb_iff, (proj2 Hh').
  - intros p Hp. destruct (G p Hp) as (k & Hk & ->). split.
    + apply group_keys_in, in_map_iff in Hk. destruct Hk as (h & <- & Hh). intros N. assert (I : In h (filter (fun h' => key_eqb (peak h) (peak h')) df)) by (apply filter_In; split; [assumption|apply key_eqb_iff, same_refl]). rewrite N in I. destruct I.
    + intros h Hh. apply filter_In in Hh. destruct Hh as [_ Hh]. apply key_eqb_iff in Hh. apply picks_filter. apply filter_ext. intros a. now apply key_eqb_ext.
  - intros h Hh. destruct (group_keys_covers (map peak df) (peak h) (in_map peak _ _ Hh)) as (k & Hk & K). exists (filter (fun a => key_eqb k (peak a)) df). split; [unfold groups; now apply in_map with (f := fun k => filter (fun h => key_eqb k (peak h)) df)|]. apply filter_In. split; [assumption|]. now apply key_eqb_iff, same_sym.
  - clear G. revert parts E. induction (groups df) as [|g l IH]; intros parts E; cbn in E; [injection E as <-; constructor|]. destruct (process_peak x0 x1 y0 y1 sensors g) eqn:P; [|discriminate]. destruct (rmap _ l) as [r|]; [|discriminate]. injection E as <-. constructor; [assumption|now apply IH].
Qed.
Print Assumptions C64_peaks.
(** a peak with two hits and three sensors, one of them outside the window *)
Definition peak_hits (n : Z) : list hit :=
  [{| peak := [inject_Z n; 0; 1]; hX := 0; hY := 0; hZ := 5; hQ := 3; hXpeak := 0; hYpeak := 0 |}; {| peak := [inject_Z n; 0; 1]; hX := 10; hY := 0; hZ := 7; hQ := 1; hXpeak := 0; hYpeak := 0 |}].
Example C64_example : peak_hits 1 <> [] /\ (forall h, In h (peak_hits 1) -> hXpeak h = 0 /\ hYpeak h = 0)
  /\ exists rows, process_peak (-15) 15 (-15) 15 [(0, 0); (10, 0); (0, 10); (20, 0)] (peak_hits 1) = Ok rows /\ map (fun h => (Qred (relx h), Qred (rely h), Qred (normq h))) rows = [(0, 0, 3 # 4); (0, 10, 0); (10, 0, 0); (10, 0, 1 # 4)].
Proof.
  split; [discriminate|]. split; [intros h [<-|[<-|[]]]; split; reflexivity|]. eexists. split; [reflexivity|]. vm_compute. reflexivity.
Qed.
(** two files with one peak each *)
Example C41_example : separate_peaks [peak_hits 1; peak_hits 2] /\ StronglySorted Qlt [-(5); 5; 15]
  /\ exists t, eutropia (fun x => x) (-15) 15 (-15) 15 [(0, 0); (10, 0)] [0; 10] [-(20); 20] [-(20); 20] [-(5); 5; 15] [-(5); 5] [peak_hits 1; peak_hits 2] = Ok (Some t)
     /\ map (fun r => (nevt r, Qred (factor r))) t = [(2%nat, 3 # 4); (4%nat, 1 # 8)].
Proof.
  split; [|split].
  - constructor; [|repeat constructor]. repeat constructor. intros h h' [<-|[<-|[]]] [<-|[<-|[]]] K; apply key_eqb_iff in K; discriminate.
  - repeat constructor.
  - eexists. split; [reflexivity|]. vm_compute. reflexivity.
Qed.
(** the restriction is needed: a peak with its hits in two files is normalised in each of them by itself *)
Theorem C41_shared_peak_refuted : exists files, ~ same_result
  (eutropia (fun x => x) (-15) 15 (-15) 15 [] [0; 10] [-(20); 20] [-(20); 20] [-(5); 5; 15] [-(5); 5] files)
  (eutropia (fun x => x) (-15) 15 (-15) 15 [] [0; 10] [-(20); 20] [-(20); 20] [-(5); 5; 15] [-(5); 5] [concat files]).
Proof.
  exists [[nth 0 (peak_hits 1) {| peak := []; hX := 0; hY := 0; hZ := 0; hQ := 0; hXpeak := 0; hYpeak := 0 |}]; [nth 1 (peak_hits 1) {| peak := []; hX := 0; hY := 0; hZ := 0; hQ := 0; hXpeak := 0; hYpeak := 0 |}]].
  intros (_ & H & _). vm_compute in H. destruct (H _ (or_introl eq_refl)) as (r & [<-|[<-|[]]] & (K & F & E)); vm_compute in F; discriminate.
Qed.
Print Assumptions C41_shared_peak_refuted.
