(** C104: what is read from the file of irene *)
From Coq Require Import NArith.
From Verif Require Import Base Arrays PeaksModel PeaksSpec PeaksProofs CalibModel CalibSpec BuffersModel PmapioModel PmapioSpec PmapioProofs PmapioProps IreneModel IreneSpec IreneProofs IreneProps IrunModel IrunSpec.
Local Open Scope nat_scope.

Lemma sorted_below n l : StronglySorted lt l -> (forall i, In i l -> i < n) -> length l <= n.
Proof.
  intros S H. rewrite <- (seq_length n 0). apply NoDup_incl_length.
  - clear H. induction S as [|a l S IH F]; constructor; [|assumption]. rewrite Forall_forall in F. intros Hi. specialize (F a Hi). lia.
  - intros i Hi. apply in_seq. specialize (H i Hi). lia.
Qed.
Lemma few_groups (gs : list (list nat)) : Forall (fun g => g <> []) gs -> length gs <= length (concat gs).
Proof. induction 1 as [|g gs Hg H IH]; [reflexivity|]. cbn. rewrite app_length. destruct g; [easy|]. cbn. lia. Qed.
Lemma length_filter {A} (f : A -> bool) l : length (filter f l) <= length l.
Proof. induction l as [|a l IH]; [reflexivity|]. cbn. destruct (f a); cbn; lia. Qed.
Lemma few_peaks s wid n f thr i P pks : samples_above n f thr i -> peaks_of s wid i P pks -> length pks <= n.
Proof.
  intros [S H] (gs & good & G & _ & F). rewrite <- (Forall2_len _ _ _ F). etransitivity; [apply length_filter|]. etransitivity; [apply few_groups, (gp_nonempty _ _ _ G)|].
  rewrite (gp_concat _ _ _ G). apply sorted_below; [assumption|]. intros k Hk. now apply H.
Qed.
Lemma peaks_each s wid i (P : list nat -> peak -> Prop) pks pk : peaks_of s wid i P pks -> In pk pks -> exists g, P g pk.
Proof. intros (gs & good & _ & _ & F) Hin. clear -F Hin. induction F as [|g x l l' H F IH]; [easy|]. destruct Hin as [<-|Hin]; [now exists g|auto]. Qed.
Lemma sorted_nodup l : StronglySorted lt l -> NoDup l.
Proof. induction 1 as [|a l S IH F]; constructor; [|assumption]. rewrite Forall_forall in F. intros Hi. specialize (F a Hi). lia. Qed.

(** what is built from waveforms of [ns] samples can be stored *)
Lemma built_ok p ns ccs ids f1 f2 i1 i2 t1 t2 k c used css r m pm : NoDup ids -> (N.of_nat ns <= 65536)%N -> samples_above ns f1 t1 i1 -> samples_above ns f2 t2 i2 ->
  peaks_of (s1_params p) (pmt_wid p) i1 (s1_of {| cols := ns; rows := ccs |} (pmt_wid p) k ids) (s1s pm) ->
  peaks_of (s2_params p) (pmt_wid p) i2 (s2_of {| cols := ns; rows := ccs |} (pmt_wid p) ids c used css r m) (s2s pm) -> pmap_ok pm.
Proof.
  intros ND Hn A1 A2 P1 P2.
  assert (Pm : forall pk a b w, consistent pk -> made_of {| cols := ns; rows := ccs |} w ids a b pk -> p_times pk <> [] /\ length (p_widths pk) = length (p_times pk) /\ sensors_ok (length (p_times pk)) (p_pmts pk)).
  { intros pk a b w (C1 & C2 & C3 & C4 & C5 & C6 & C7 & C8) (M1 & _). split; [destruct (p_times pk); [cbn in C3; lia|discriminate]|]. split; [exact C4|]. split; [now rewrite M1|now symmetry| |exact C5]. rewrite <- C5. exact C1. }
  split; [|split; [|split]].
  - intros pk Hpk. destruct (peaks_each _ _ _ _ _ _ P1 Hpk) as (g & a & b & _ & _ & _ & M & C & _ & E). destruct (Pm pk a b _ C M) as (Q1 & Q2 & Q3). split; [exact Q1|]. split; [exact Q2|]. split; [exact Q3|exact E].
  - intros pk Hpk. destruct (peaks_each _ _ _ _ _ _ P2 Hpk) as (g & a & b & _ & _ & _ & M & C & _ & So & _). destruct (Pm pk a b _ C M) as (Q1 & Q2 & Q3). split; [exact Q1|]. split; [exact Q2|]. split; [exact Q3|].
    destruct (r_ids (p_sipms pk)) as [|i l] eqn:E; [now left|right]. destruct C as (C1 & C2 & C3 & C4 & C5 & C6 & C7 & C8). rewrite E in *. assert (K : cols (r_wfs (p_sipms pk)) = length (p_times pk)) by (now apply C8).
    split; [rewrite E; now apply sorted_nodup|rewrite E; congruence| |exact K]. rewrite <- K. exact C2.
  - pose proof (few_peaks _ _ _ _ _ _ _ _ A1 P1). lia.
  - pose proof (few_peaks _ _ _ _ _ _ _ _ A2 P2). lia.
Qed.
Lemma right_ok butter sqrt pmts sipms p ns r m e pm : NoDup (map pm_id (filter pm_active pmts)) -> (N.of_nat ns <= 65536)%N ->
  right_pmap butter sqrt pmts sipms p ns r m e (Some pm) -> pmap_ok pm /\ has_peaks pm.
Proof. intros ND Hn (xs & css & i1 & i2 & _ & _ & A1 & A2 & _ & _ & Hp & P1 & P2). split; [|exact Hp]. exact (built_ok _ _ _ _ _ _ _ _ _ _ _ _ _ _ _ _ _ ND Hn A1 A2 P1 P2). Qed.

(** the PMap of one event (C93) *)
Lemma event_pmap butter sqrt pmts sipms p ns nss r m e : good_event pmts sipms p ns nss (re_pmt e) (re_sipm e) r m -> selection_fits sipms (cut p) ->
  exists pm, right_pmap butter sqrt pmts sipms p ns r m e pm /\ irene_event butter sqrt pmts sipms p ns nss (re_pmt e) (re_sipm e) = Ok (option_map (fun pm => (s1s pm, s2s pm)) pm).
Proof.
  intros G F. destruct (C93_pmap butter sqrt pmts sipms p ns nss _ _ r m G F) as (xs & css & o & i1 & i2 & H1 & H2 & H3 & H4 & E & H).
  exists (option_map (fun x => {| s1s := fst x; s2s := snd x |}) o). split; [|rewrite E; now destruct o as [[]|]]. exists xs, css, i1, i2. repeat (split; [assumption|]). cbv zeta in *. destruct o as [[a b]|]; exact H.
Qed.

Lemma in_found e pm l : In (e, pm) (found l) <-> In (e, Some pm) l.
Proof.
  unfold found. rewrite in_flat_map. split.
  - intros ([e' [pm'|]] & H & Hin); cbn in Hin; [|easy]. destruct Hin as [E|[]]. now injection E as <- <-.
  - intros H. exists (e, Some pm). split; [exact H|now left].
Qed.
Lemma run_found f32 event events pms o t : Forall2 (fun e pm => event (re_pmt e) (re_sipm e) = Ok (option_map (fun pm => (s1s pm, s2s pm)) pm)) events pms ->
  store_pmaps f32 (io_tables o) (map (fun x => (re_number (fst x), snd x)) (found (combine events pms))) = Ok t ->
  irene_run f32 event events o = Ok {| io_tables := t; io_events := io_events o ++ map (fun x => (re_number (fst x), re_time (fst x))) (found (combine events pms));
                                       io_in := io_in o + length events; io_out := io_out o + length (found (combine events pms)) |}.
Proof.
  intros F. revert o. induction F as [|e pm es pms E F IH]; intros o St.
  - cbn in *. injection St as <-. rewrite app_nil_r, !Nat.add_0_r. now destruct o.
  - cbn [irene_run]. rewrite E. cbn [rbind combine]. destruct pm as [pm|]; cbn [option_map].
    + cbn [found flat_map combine snd fst app map store_pmaps] in St. fold (found (combine es pms)) in St. replace {| s1s := s1s pm; s2s := s2s pm |} with pm by now destruct pm.
      destruct (store_pmap f32 (io_tables o) (re_number e) pm) as [t'|x] eqn:Es; [|discriminate]. cbn [rbind] in *. rewrite IH by exact St. cbn [found flat_map snd fst app map length io_events io_in io_out].
      fold (found (combine es pms)). rewrite <- app_assoc. cbn [app]. f_equal. f_equal; lia.
    + cbn [found flat_map combine snd fst app map store_pmaps] in St. fold (found (combine es pms)) in St. rewrite IH by exact St. cbn [found flat_map snd fst app map length io_events io_in io_out]. fold (found (combine es pms)). f_equal. f_equal; lia.
Qed.

Lemma nodup_found es pms : NoDup (map re_number es) -> NoDup (map (fun x => re_number (fst x)) (found (combine es pms))).
Proof.
  revert pms. induction es as [|e es IH]; intros [|pm pms] H; try constructor. inversion H as [|? ? N H']; subst. cbn [combine found flat_map]. fold (found (combine es pms)). destruct pm as [pm|]; cbn [snd fst app map]; [|now apply IH].
  constructor; [|now apply IH]. intros Hin. apply N. apply in_map_iff in Hin. destruct Hin as ([e' pm'] & E & Hin). apply in_found in Hin. apply in_combine_l in Hin. cbn [fst] in E. rewrite <- E. now apply in_map.
Qed.

Theorem C104_file butter sqrt f32 pmts sipms p ns nss r m events :
  (forall e, In e events -> good_event pmts sipms p ns nss (re_pmt e) (re_sipm e) r m) -> selection_fits sipms (cut p) ->
  NoDup (map re_number events) -> NoDup (map pm_id (filter pm_active pmts)) -> (N.of_nat ns <= 65536)%N ->
  exists o pms d,
    irene_run f32 (irene_event butter sqrt pmts sipms p ns nss) events nothing_written = Ok o /\
    Forall2 (right_pmap butter sqrt pmts sipms p ns r m) events pms /\
    io_in o = length events /\ io_out o = length (io_events o) /\
    io_events o = map (fun x => (re_number (fst x), re_time (fst x))) (found (combine events pms)) /\
    load_pmaps_eager (map fst (io_events o)) (io_tables o) = Ok d /\ NoDup (map fst d) /\
    forall n pm', In (n, pm') d <-> exists e pm, In (e, Some pm) (combine events pms) /\ n = re_number e /\ pm' = round_pmap f32 pm.
Proof.
  intros G F ND NI Hn.
  assert (X : exists pms, Forall2 (right_pmap butter sqrt pmts sipms p ns r m) events pms /\ Forall2 (fun e pm => irene_event butter sqrt pmts sipms p ns nss (re_pmt e) (re_sipm e) = Ok (option_map (fun pm => (s1s pm, s2s pm)) pm)) events pms).
  { clear ND. induction events as [|e es IH]; [exists []; split; constructor|]. destruct IH as (pms & I1 & I2); [intros; apply G; now right|]. destruct (event_pmap butter sqrt pmts sipms p ns nss r m e (G e (or_introl eq_refl)) F) as (pm & H1 & H2).
    exists (pm :: pms). split; constructor; assumption. }
  destruct X as (pms & R & E). set (l := map (fun x => (re_number (fst x), snd x)) (found (combine events pms))).
  assert (In_l : forall n pm, In (n, pm) l <-> exists e, In (e, Some pm) (combine events pms) /\ n = re_number e).
  { intros n pm. unfold l. rewrite in_map_iff. split.
    - intros ([e pm'] & Eq & H). cbn in Eq. injection Eq as <- <-. apply in_found in H. now exists e.
    - intros (e & H & ->). exists (e, pm). split; [reflexivity|now apply in_found]. }
  assert (Ok_l : forall n pm, In (n, pm) l -> pmap_ok pm /\ has_peaks pm).
  { intros n pm H. apply In_l in H. destruct H as (e & H & _). apply (right_ok butter sqrt pmts sipms p ns r m e pm NI Hn). clear -R H. induction R as [|a b es ps H1 R IH]; [easy|]. destruct H as [Eq|H]; [now injection Eq as -> ->|auto]. }
  assert (NDl : NoDup (map fst l)) by (unfold l; rewrite map_map; cbn [fst]; now apply nodup_found).
  destruct (C13_round_trip f32 l (map fst l)) as (t & d & St & Ld & Nd & Hd); [intros; now apply (Ok_l ev pm)|exact NDl| |].
  { intros ev. rewrite in_map_iff. split; [intros ([n pm] & <- & H); exists pm; split; [exact H|now apply (Ok_l n pm)]|intros (pm & H & _); now exists (ev, pm)]. }
  exists {| io_tables := t; io_events := map (fun x => (re_number (fst x), re_time (fst x))) (found (combine events pms)); io_in := length events; io_out := length (found (combine events pms)) |}, pms, d.
  split; [apply (run_found f32 _ events pms nothing_written t E St)|]. split; [exact R|]. cbn [io_tables io_events io_in io_out]. split; [reflexivity|]. split; [now rewrite map_length|]. split; [reflexivity|].
  split; [rewrite map_map; cbn [fst]; replace (map _ (found (combine events pms))) with (map fst l) by (unfold l; now rewrite map_map); exact Ld|]. split; [exact Nd|].
  intros n pm'. rewrite Hd. split.
  - intros (pm & H & _ & ->). apply In_l in H. destruct H as (e & H & ->). now exists e, pm.
  - intros (e & pm & H & -> & ->). exists pm. assert (Hl : In (re_number e, pm) l) by (apply In_l; now exists e). split; [exact Hl|]. split; [now apply (Ok_l _ pm Hl)|reflexivity].
Qed.
Print Assumptions C104_file.

(** two events, of which the second has no light *)
Definition ex_events : list raw_event :=
  [ {| re_number := 7; re_time := 100; re_pmt := ex_rp; re_sipm := ex_rs |};
    {| re_number := 9; re_time := 200; re_pmt := [repeat 10%Z 400; repeat 10%Z 400; repeat 10%Z 400]; re_sipm := ex_rs |} ].
Example C104_ex : (forall e, In e ex_events -> good_event ex_pmts (ex_sipms true) (ex_par individual) 400 200 (re_pmt e) (re_sipm e) 2 2) /\ selection_fits (ex_sipms true) (cut (ex_par individual)) /\
  NoDup (map re_number ex_events) /\ NoDup (map pm_id (filter pm_active ex_pmts)) /\ (N.of_nat 400 <= 65536)%N /\
  match irene_run (fun x => x) (irene_event ex_butter ex_sqrt ex_pmts (ex_sipms true) (ex_par individual) 400 200) ex_events nothing_written with Ok o => map fst (io_events o) = [7%Z] /\ io_in o = 2 | Err _ => False end.
Proof.
  split.
  { intros e [<-|[<-|[]]]; [apply ex_good|]. destruct (ex_good true individual). split; try assumption; try reflexivity; repeat constructor. }
  split; [split; [reflexivity|repeat constructor]|]. split; [repeat constructor; cbn; intuition discriminate|]. split; [repeat constructor; cbn; intuition discriminate|]. split; [vm_compute; discriminate|]. vm_compute. split; reflexivity.
Qed.

(** When two events have the same number, the waveforms of one PMT are read back as those of another *)
Theorem C104_repeated_refuted : exists pm t pm', pmap_ok pm /\ store_pmaps (fun x => x) empty_tables [(7%Z, pm); (7%Z, pm)] = Ok t /\ load_pmaps_eager [7%Z; 7%Z] t = Ok [(7%Z, pm')] /\
  (exists s w, s1s pm = [s] /\ waveform (p_pmts s) 3 = Ok w /\ exists s' w', s1s pm' = [s'] /\ waveform (p_pmts s') 3 = Ok w' /\ w = [5; 6]%Q /\ w' = [5; 6; 50; 60]%Q /\ waveform (p_pmts s) 8 = Ok [50; 60]%Q).
Proof.
  set (s := {| p_times := [1; 2]%Q; p_widths := [1; 1]%Q; p_pmts := {| r_ids := [3; 8]; r_wfs := {| cols := 2; rows := [[5; 6]; [50; 60]]%Q |} |}; p_sipms := empty_responses |}).
  exists {| s1s := [s]; s2s := [] |}. eexists. eexists. split.
  { split; [|split; [easy|split; cbn; lia]]. intros x [<-|[]]. split; [discriminate|]. split; [reflexivity|]. split; [|reflexivity]. split; try reflexivity; [|repeat constructor]. repeat constructor; cbn; intuition discriminate. }
  split; [vm_compute; reflexivity|]. split; [vm_compute; reflexivity|]. exists s. eexists. split; [reflexivity|]. split; [reflexivity|]. eexists. eexists. split; [reflexivity|]. split; [reflexivity|]. split; [reflexivity|]. split; reflexivity.
Qed.
Print Assumptions C104_repeated_refuted.
