(** C105: the PMaps given to the cities *)
From Verif Require Import Base PeaksModel BuffersModel ReadModel PmapioModel PmapioSpec PmapioProofs PmapioProps CalibModel IreneModel IreneSpec IreneProofs IrunModel IrunSpec IrunProps PreadModel PreadSpec.
Local Open Scope nat_scope.

Lemma over_files_app {F A} (read : F -> generated A) a b l : over_files read a = (l, None) ->
  over_files read (a ++ b) = (l ++ fst (over_files read b), snd (over_files read b)).
Proof.
  revert l. induction a as [|f a IH]; intros l H; cbn in *; [injection H as <-; cbn; now destruct (over_files read b)|].
  destruct (read f) as [m [e|]]; [discriminate|]. destruct (over_files read a) as [m' e'] eqn:E. injection H as <- ->. rewrite (IH m' eq_refl). now rewrite app_assoc.
Qed.
Lemma over_files_forall2 {F A} (read : F -> generated A) files parts : Forall2 (fun f p => read f = (p, None)) files parts -> over_files read files = (concat parts, None).
Proof. induction 1 as [|f p fs ps H F' IH]; [reflexivity|]. cbn. rewrite H, IH. reflexivity. Qed.

(** the values of the loader are those of the loader of whole files *)
Lemma events_of_lazy t run events d : rmap (fun ev => rbind (load_event t ev) (fun pm =>
        match of_event_s ev (t_s1 t) ++ of_event_s ev (t_s2 t) with [] => Err IndexError | r :: _ => Ok (s_event r, pm) end)) (map fst events) = Ok d ->
  map fst d = map fst events -> pmap_events t run events = (map2 (fun x y => {| pi_pmap := snd y; pi_run := run; pi_event := fst x; pi_time := snd x |}) events d, None).
Proof.
  revert d. induction events as [|[ev tm] events IH]; intros d H Hd; cbn in H; [now injection H as <-|].
  unfold pmap_events; fold pmap_events. unfold lazy_event. destruct (load_event t ev) as [pm|]; [|discriminate]. cbn [rbind] in *.
  destruct (of_event_s ev (t_s1 t) ++ of_event_s ev (t_s2 t)) as [|r l]; [discriminate|]. cbn [rbind] in *.
  destruct (rmap _ (map fst events)) as [d'|] eqn:E; [|discriminate]. cbn [rbind] in H. injection H as <-. cbn [map fst] in Hd. injection Hd as Hr Hd. rewrite Hr, Z.eqb_refl.
  rewrite (IH _ eq_refl Hd). reflexivity.
Qed.

Lemma F2_impl {A B} (P Q : A -> B -> Prop) l m : (forall a b, P a b -> Q a b) -> Forall2 P l m -> Forall2 Q l m.
Proof. intros H F. induction F; constructor; auto. Qed.
Lemma F2_map_in {A B C} (g : A -> B) (P : B -> C -> Prop) l d : Forall2 P (map g l) d -> Forall2 (fun a c => In a l /\ P (g a) c) l d.
Proof.
  revert d. induction l as [|a l IH]; intros d F; inversion F as [|? ? ? ? H F']; subst; constructor; [split; [now left|exact H]|].
  apply IH in F'. revert F'. apply F2_impl. intros x0 y0 (H1 & H2). split; [now right|exact H2].
Qed.
Lemma same_event (l : list written_event) a b : NoDup (map we_number l) -> In a l -> In b l -> we_number a = we_number b -> a = b.
Proof.
  induction l as [|x l IH]; intros N Ha Hb E; [easy|]. cbn in N. inversion N as [|? ? N1 N2]; subst. destruct Ha as [<-|Ha], Hb as [<-|Hb]; [reflexivity|..|now apply IH].
  - exfalso. apply N1. rewrite E. now apply in_map.
  - exfalso. apply N1. rewrite <- E. now apply in_map.
Qed.

Lemma file_read f32 f run l : holds f32 f run l -> exists part, pmap_from_file f = (part, None) /\ Forall2 (item_of f32 run) l part.
Proof.
  intros ((t & St & Et) & (more & Er) & Ee & ND & Hok). set (w := map (fun e => (we_number e, we_pmap e)) l) in *.
  assert (Fw : map fst w = map we_number l) by (unfold w; now rewrite map_map).
  destruct (C13_lazy_reader f32 w (map we_number l) 0 None) as (t' & d & St' & Ld & F).
  - intros ev pm H. apply in_map_iff in H. destruct H as (e & Eq & H). injection Eq as <- <-. now apply (Hok e).
  - now rewrite Fw.
  - intros ev. rewrite in_map_iff. split.
    + intros (e & <- & H). exists (we_pmap e). split; [apply in_map_iff; now exists e|now apply Hok].
    + intros (pm & H & _). apply in_map_iff in H. destruct H as (e & Eq & H). injection Eq as <- <-. now exists e.
  - rewrite St in St'. injection St' as <-. cbn [skipn] in F. rewrite firstn_all in F. unfold load_pmaps_lazy in Ld.
    set (events := map (fun e => (we_number e, we_time e)) l) in *. assert (Em : map fst events = map we_number l) by (unfold events; now rewrite map_map).
    destruct (check_file_integrity (map we_number l) t) as [u|] eqn:Ec; [|discriminate]. cbn [rbind Nat.add] in Ld. unfold slice in Ld. cbn [skipn] in Ld. rewrite Nat.sub_0_r, firstn_all in Ld.
    assert (Fd : map fst d = map fst events) by (rewrite Em; clear -F; remember (map we_number l) as q eqn:Eq; clear Eq; induction F as [|a b x y (pm & _ & ->) F IH]; cbn; [reflexivity|now f_equal]).
    rewrite <- Em in Ld. pose proof (events_of_lazy t run events d Ld Fd) as G.
    exists (map2 (fun x y => {| pi_pmap := snd y; pi_run := run; pi_event := fst x; pi_time := snd x |}) events d). split.
    + unfold pmap_from_file. rewrite Er, Ee, Et, Em, Ec. cbn [run_of]. destruct events; [cbn in G; destruct d; [reflexivity|discriminate Fd]|exact G].
    + apply F2_map_in in F. unfold events. clear -F ND. assert (K : forall e x, In e l -> (exists pm, In (we_number e, pm) w /\ x = (we_number e, round_pmap f32 pm)) -> x = (we_number e, round_pmap f32 (we_pmap e))).
      { intros e x He (pm & H & ->). apply in_map_iff in H. destruct H as (e' & Eq & H). injection Eq as Eq <-. now rewrite (same_event l e' e ND H He Eq). }
      induction F as [|e x m n (H1 & H2) F IH]; [constructor|]. cbn [map map2]. constructor; [|exact IH]. rewrite (K e x H1 H2). repeat split.
Qed.

(** one item for each event of each file, in order *)
Theorem C105_events f32 files : Forall (fun f => without_events f \/ exists run l, holds f32 f run l) files ->
  exists parts, pmap_from_files files = (concat parts, None) /\ Forall2 (read_of f32) files parts.
Proof.
  intros H. assert (X : exists parts, Forall2 (fun f p => pmap_from_file f = (p, None) /\ read_of f32 f p) files parts).
  { clear -H. induction H as [|f fs [H|(run & l & H)] F (qs & IH)]; [exists []; constructor| |].
    - exists ([] :: qs). constructor; [|exact IH]. split; [|now left]. unfold pmap_from_file. destruct H as [E|[E|[E|E]]]; rewrite E; cbn [run_of]; try reflexivity; destruct (run_of (pf_runs f)); reflexivity.
    - destruct (file_read f32 f run l H) as (part & E & G). exists (part :: qs). constructor; [|exact IH]. split; [exact E|]. right. now exists run, l. }
  destruct X as (qs & X). exists qs. split.
  - apply over_files_forall2. revert X. apply F2_impl. tauto.
  - revert X. apply F2_impl. tauto.
Qed.
Print Assumptions C105_events.

(** reading stops at a file whose events are not those of its PMaps, after the events of the files before it *)
Definition same_events (events : list (Z * Q)) (t : pm_tables) : Prop :=
  forall n, In n (map fst events) <-> (exists r, In r (t_s1 t ++ t_s2 t) /\ s_event r = n).
Theorem C105_other_events f32 before f after t run more events : Forall (fun f => without_events f \/ exists run l, holds f32 f run l) before ->
  pf_tables f = Some t -> pf_runs f = Some (run :: more) -> pf_events f = Some events -> events <> [] -> ~ same_events events t ->
  exists parts, Forall2 (read_of f32) before parts /\ pmap_from_files (before ++ f :: after) = (concat parts, Some InvalidInputFileStructure).
Proof.
  intros B Et Er Ee Hn Hs. destruct (C105_events f32 before B) as (parts & E & F). exists parts. split; [exact F|]. unfold pmap_from_files in *. rewrite (over_files_app _ _ _ _ E).
  assert (X : pmap_from_file f = ([], Some InvalidInputFileStructure)).
  { unfold pmap_from_file. rewrite Er, Ee, Et. cbn [run_of]. destruct events as [|x events]; [easy|]. unfold check_file_integrity. match goal with |- context [if ?b then _ else _] => destruct b eqn:Eb end; [|reflexivity]. exfalso. apply Hs.
    apply andb_true_iff in Eb. destruct Eb as [E1 E2]. rewrite subsetb_spec in E1, E2. intros n. assert (T : In n (table_events t) <-> (exists r, In r (t_s1 t ++ t_s2 t) /\ s_event r = n)).
    { unfold table_events. rewrite <- map_app, in_map_iff. split; intros (r & A & A'); exists r; split; assumption. }
    rewrite <- T. split; [apply E1|apply E2]. }
  cbn [over_files]. rewrite X. cbn. now rewrite app_nil_r.
Qed.
Print Assumptions C105_other_events.

(** a file with events but without PMaps is not skipped: it stops the reading *)
Theorem C105_no_pmaps_refuted before f after f32 run more events : Forall (fun f => without_events f \/ exists run l, holds f32 f run l) before ->
  pf_tables f = None -> pf_runs f = Some (run :: more) -> pf_events f = Some events -> events <> [] ->
  exists parts, Forall2 (read_of f32) before parts /\ pmap_from_files (before ++ f :: after) = (concat parts, Some NoSuchNodeError).
Proof.
  intros B Et Er Ee Hn. destruct (C105_events f32 before B) as (parts & E & F). exists parts. split; [exact F|]. unfold pmap_from_files in *. rewrite (over_files_app _ _ _ _ E).
  assert (X : pmap_from_file f = ([], Some NoSuchNodeError)) by (unfold pmap_from_file; rewrite Er, Ee, Et; cbn [run_of]; now destruct events).
  cbn [over_files]. rewrite X. cbn. now rewrite app_nil_r.
Qed.
Print Assumptions C105_no_pmaps_refuted.

(** the file of a run of irene (C104) is such a file *)
Definition irene_file (run : Z) (o : irene_out) : pfile := {| pf_tables := Some (io_tables o); pf_runs := Some (repeat run (io_out o)); pf_events := Some (io_events o) |}.
Theorem C105_irene butter sqrt f32 pmts sipms p ns nss r m events run :
  (forall e, In e events -> good_event pmts sipms p ns nss (re_pmt e) (re_sipm e) r m) -> selection_fits sipms (cut p) ->
  NoDup (map re_number events) -> NoDup (map pm_id (filter pm_active pmts)) -> (N.of_nat ns <= 65536)%N ->
  exists o pms part,
    irene_run f32 (irene_event butter sqrt pmts sipms p ns nss) events nothing_written = Ok o /\
    Forall2 (right_pmap butter sqrt pmts sipms p ns r m) events pms /\
    pmap_from_files [irene_file run o] = (part, None) /\
    Forall2 (fun x it => pi_event it = re_number (fst x) /\ pi_time it = re_time (fst x) /\ pi_run it = run /\ pi_pmap it = round_pmap f32 (snd x)) (found (combine events pms)) part.
Proof.
  intros G F ND NI Hn.
  assert (X : exists pms, Forall2 (right_pmap butter sqrt pmts sipms p ns r m) events pms /\ Forall2 (fun e pm => irene_event butter sqrt pmts sipms p ns nss (re_pmt e) (re_sipm e) = Ok (option_map (fun pm => (s1s pm, s2s pm)) pm)) events pms).
  { clear ND. induction events as [|e es IH]; [exists []; split; constructor|]. destruct IH as (pms & I1 & I2); [intros; apply G; now right|]. destruct (event_pmap butter sqrt pmts sipms p ns nss r m e (G e (or_introl eq_refl)) F) as (pm & H1 & H2).
    exists (pm :: pms). split; constructor; assumption. }
  destruct X as (pms & R & E). set (l := map (fun x => {| we_number := re_number (fst x); we_time := re_time (fst x); we_pmap := snd x |}) (found (combine events pms))).
  assert (Ok_l : forall e, In e l -> pmap_ok (we_pmap e) /\ has_peaks (we_pmap e)).
  { intros x H. apply in_map_iff in H. destruct H as ([e pm] & <- & H). apply in_found in H. cbn [we_pmap snd]. apply (right_ok butter sqrt pmts sipms p ns r m e pm NI Hn). clear -R H. induction R as [|a b es ps H1 R IH]; [easy|]. destruct H as [Eq|H]; [now injection Eq as -> ->|auto]. }
  assert (NDl : NoDup (map we_number l)) by (unfold l; rewrite map_map; cbn [we_number]; now apply nodup_found).
  destruct (C13_lazy_reader f32 (map (fun e => (we_number e, we_pmap e)) l) (map we_number l) 0 None) as (t & d & St & _).
  { intros ev pm H. apply in_map_iff in H. destruct H as (e & Eq & H). injection Eq as <- <-. now apply (Ok_l e). }
  { now rewrite map_map. }
  { intros ev. rewrite in_map_iff. split.
    - intros (e & <- & H). exists (we_pmap e). split; [apply in_map_iff; now exists e|now apply Ok_l].
    - intros (pm & H & _). apply in_map_iff in H. destruct H as (e & Eq & H). injection Eq as <- <-. now exists e. }
  set (o := {| io_tables := t; io_events := map (fun x => (re_number (fst x), re_time (fst x))) (found (combine events pms)); io_in := length events; io_out := length (found (combine events pms)) |}).
  assert (Run : irene_run f32 (irene_event butter sqrt pmts sipms p ns nss) events nothing_written = Ok o).
  { apply (run_found f32 _ events pms nothing_written t E). cbn [nothing_written io_tables]. unfold l in St. rewrite map_map in St. exact St. }
  destruct (length (found (combine events pms))) as [|k] eqn:Ek.
  - assert (En : found (combine events pms) = []) by (now destruct (found (combine events pms))). exists o, pms, []. split; [exact Run|]. split; [exact R|]. rewrite En. split; [|constructor]. unfold o, irene_file, pmap_from_files, over_files, pmap_from_file. cbn. reflexivity.
  - destruct (file_read f32 (irene_file run o) run l) as (part & Ep & Fp).
    { split; [exists t; split; [exact St|reflexivity]|]. split; [exists (repeat run k); unfold o, irene_file; reflexivity|]. split; [unfold o, irene_file, l; cbn; now rewrite map_map|]. split; [exact NDl|exact Ok_l]. }
    exists o, pms, part. split; [exact Run|]. split; [exact R|]. split; [unfold pmap_from_files, over_files; rewrite Ep; now rewrite app_nil_r|].
    clear -Fp. unfold l in Fp. apply F2_map_in in Fp. induction Fp as [|x it a b (_ & H) Fp IH]; constructor; assumption.
Qed.
Print Assumptions C105_irene.

(** a file with two events, one without events, and a file without PMaps *)
Definition ex_s1 : peak := {| p_times := [1; 2]%Q; p_widths := [1; 1]%Q; p_pmts := {| r_ids := [3; 8]; r_wfs := {| cols := 2; rows := [[5; 6]; [50; 60]]%Q |} |}; p_sipms := empty_responses |}.
Definition ex_written : list written_event :=
  [{| we_number := 7; we_time := 1; we_pmap := {| s1s := [ex_s1]; s2s := [] |} |}; {| we_number := 4; we_time := 2; we_pmap := {| s1s := [ex_s1]; s2s := [ex_s1] |} |}].
Definition ex_pfile : pfile := {| pf_tables := match store_pmaps (fun x => x) empty_tables (map (fun e => (we_number e, we_pmap e)) ex_written) with Ok t => Some t | Err _ => None end;
  pf_runs := Some [5%Z; 5%Z]; pf_events := Some [(7%Z, 1%Q); (4%Z, 2%Q)] |}.
Definition ex_nothing : pfile := {| pf_tables := None; pf_runs := Some []; pf_events := Some [] |}.
Definition ex_no_pmaps : pfile := {| pf_tables := None; pf_runs := Some [5%Z]; pf_events := Some [(9%Z, 3%Q)] |}.
Example C105_ex : holds (fun x => x) ex_pfile 5 ex_written /\ without_events ex_nothing /\
  (let '(l, e) := pmap_from_files [ex_nothing; ex_pfile; ex_no_pmaps] in map pi_event l = [7%Z; 4%Z] /\ map (fun it => length (s2s (pi_pmap it))) l = [0; 1] /\ e = Some NoSuchNodeError) /\
  ~ same_events [(7%Z, 1%Q)] match pf_tables ex_pfile with Some t => t | None => empty_tables end.
Proof.
  split.
  { split; [eexists; split; reflexivity|]. split; [eexists; reflexivity|]. split; [reflexivity|]. split; [repeat constructor; cbn; intuition discriminate|].
    assert (S1 : s1_ok ex_s1). { split; [discriminate|]. split; [reflexivity|]. split; [|reflexivity]. split; try reflexivity; [|repeat constructor]. repeat constructor; cbn; intuition discriminate. }
    assert (S2 : s2_ok ex_s1) by (destruct S1 as (A & B & C & D); repeat (split; [assumption|]); now left).
    intros e [<-|[<-|[]]]; (split; [split; [intros x [<-|[]]; exact S1|split; [|split; cbn; lia]]|left; discriminate]); intros x Hx; cbn in Hx; [easy|]. destruct Hx as [<-|[]]. exact S2. }
  split; [right; now left|]. split; [vm_compute; repeat split|]. intros H. destruct (H 4%Z) as [_ H4]. destruct H4 as [|[]]; [|discriminate]. exists {| s_event := 4; s_peak := 0; s_time := 1; s_bwidth := 1; s_ene := 55 |}. split; [vm_compute; tauto|reflexivity].
Qed.
