(** C87: the simulation tables of the output of a city *)
From Verif Require Import Base McopyModel McopySpec.
From Coq Require Import Lia.
Local Open Scope Z_scope.

Lemma memZ_spec x l : memZ x l = true <-> In x l.
Proof. unfold memZ. rewrite existsb_exists. split; [intros (y & H & E); apply Z.eqb_eq in E; now subst y|intros H; exists x; split; [assumption|apply Z.eqb_refl]]. Qed.
Lemma in_insertZ x y l : In x (insertZ y l) <-> x = y \/ In x l.
Proof. induction l as [|z l IH]; cbn [insertZ]; [cbn; intuition congruence|]. destruct (y <? z); [cbn; intuition congruence|]. destruct (Z.eqb_spec y z) as [->|N]; cbn [In]; [intuition congruence|]. rewrite IH. intuition congruence. Qed.
Lemma in_uniqueZ x l : In x (uniqueZ l) <-> In x l.
Proof. induction l as [|y l IH]; [reflexivity|]. cbn [uniqueZ fold_right]. fold (uniqueZ l). rewrite in_insertZ, IH. cbn. intuition congruence. Qed.
Lemma filter_cong {A} (p q : A -> bool) l : (forall a, In a l -> p a = q a) -> filter p l = filter q l.
Proof. induction l as [|a l IH]; intros H; [reflexivity|]. cbn. rewrite (H a) by now left. rewrite IH by (intros; apply H; now right). reflexivity. Qed.

Section Rows.
  Context {R : Type}.
  Notation file := (file R).
  Implicit Types (f g out : file).

  Lemma sel_spec out events m f out1 sel : f_mc f = Some m -> safe_copy_nexus_eventmap out events m (f_map f) = Ok (out1, sel) -> forall n e, In (n, e) sel <-> In n events /\ numbered f n e.
  Proof.
    intros Em H n e. unfold safe_copy_nexus_eventmap in H. unfold numbered. rewrite Em. destruct (f_map f) as [l|].
    - injection H as _ <-. rewrite filter_In, memZ_spec. cbn [fst]. intuition congruence.
    - destruct (get_event_numbers_in_file m) as [es|] eqn:E; [|discriminate]. injection H as _ <-. rewrite in_map_iff. 
      assert (K : forall x, In x es <-> In x (known_events f)).
      { intros x. unfold get_event_numbers_in_file in E. unfold known_events, rows_of. rewrite Em. destruct (m_data m Particles) as [[|p l]|]; [destruct (m_data m Response) as [l|]; [|discriminate]| |discriminate]; (match type of E with Ok ?u = _ => assert (es = u) as -> by congruence end); apply in_uniqueZ. }
      split.
      + intros (x & [= <- <-] & H). apply filter_In in H as [H1 H2]. rewrite in_uniqueZ in H1. rewrite memZ_spec, K in H2. split; [assumption|]. split; [discriminate|auto].
      + intros (H1 & _ & -> & H2). exists e. split; [reflexivity|]. apply filter_In. now rewrite in_uniqueZ, memZ_spec, K.
  Qed.
  Definition raw_map f : list (Z * Z) := match f_map f with Some l => l | None => [] end.
  Lemma copy_file_spec events out f out1 c : copy_file events out f = Ok (out1, c) ->
    (forall k, exists kept, chosen events f (rows_of f k) kept /\ rows_of out1 k = rows_of out k ++ kept) /\
    raw_map out1 = raw_map out ++ filter (fun p => memZ (fst p) events) (map_of f) /\
    (forall k, whole_of out1 k = whole_of out k ++ whole_of f k) /\ (forall n, In n c <-> In n events /\ exists e, numbered f n e).
  Proof.
    intros H. unfold copy_file in H. destruct (f_mc f) as [m|] eqn:Em.
    - destruct (safe_copy_nexus_eventmap out events m (f_map f)) as [[out2 sel]|] eqn:S; [|discriminate]. cbn [rbind] in H. destruct (copy_tables out2 m (map snd sel)) as [out3|] eqn:C; [|discriminate]. cbn [rbind] in H. injection H as <- <-. pose proof (sel_spec out events m f out2 sel Em S) as P.
      assert (S' : f_mc out2 = f_mc out /\ raw_map out2 = raw_map out ++ filter (fun p => memZ (fst p) events) (map_of f)).
      { unfold safe_copy_nexus_eventmap in S. unfold raw_map, map_of. rewrite Em. destruct (f_map f) as [l|]; [injection S as <- <-; cbn [f_mc f_map append]; split; [reflexivity|]; now destruct (f_map out)|]. destruct (get_event_numbers_in_file m); [|discriminate]. injection S as <- _. cbn [filter]. now rewrite app_nil_r. }
      destruct S' as [S1 S2]. unfold copy_tables in C. rewrite S1 in C.
      assert (C' : out3 = {| f_mc := Some {| m_data := fun k => match m_data m k with None => m_data (match f_mc out with Some o => o | None => empty_mc end) k | Some l => append (m_data (match f_mc out with Some o => o | None => empty_mc end) k) (filter (fun r => memZ (fst r) (map snd sel)) l) end; m_mapping := append (m_mapping (match f_mc out with Some o => o | None => empty_mc end)) (match m_mapping m with Some l => filter (fun e => memZ e (map snd sel)) l | None => map snd sel end); m_whole := fun k => match m_whole m k with None => m_whole (match f_mc out with Some o => o | None => empty_mc end) k | Some l => append (m_whole (match f_mc out with Some o => o | None => empty_mc end) k) l end |}; f_map := f_map out2 |}) by (destruct (m_mapping (match f_mc out with Some o => o | None => empty_mc end)) as [[|]|]; congruence).
      clear C. subst out3. split; [|split; [|split]].
      + intros k. exists (filter (fun r => memZ (fst r) (map snd sel)) (rows_of f k)). split.
        * exists (fun e => memZ e (map snd sel)). split; [|reflexivity]. intros e. rewrite memZ_spec, in_map_iff. split; [intros ([n e'] & <- & H); exists n; now apply P|intros (n & H); exists (n, e); split; [reflexivity|now apply P]].
        * unfold rows_of. cbn [f_mc m_data]. rewrite Em. destruct (m_data m k) as [l|]; destruct (f_mc out) as [o|]; cbn [append]; [destruct (m_data o k); reflexivity|reflexivity|cbn [filter]; now rewrite app_nil_r|reflexivity].
      + exact S2.
      + intros k. unfold whole_of. cbn [f_mc m_whole]. rewrite Em. destruct (m_whole m k) as [l|]; destruct (f_mc out) as [o|]; cbn [append]; [destruct (m_whole o k); reflexivity|reflexivity|now rewrite app_nil_r|reflexivity].
      + intros n. rewrite in_map_iff. split; [intros ([n' e] & <- & H); apply P in H as [H1 H2]; eauto|intros (H & e & He); exists (n, e); split; [reflexivity|now apply P]].
    - injection H as <- <-. assert (N : forall n e, ~ numbered f n e) by (intros n e [C _]; now apply C). split; [|split; [|split]].
      + intros k. exists []. split; [|now rewrite app_nil_r]. exists (fun _ => false). split; [intros e; split; [discriminate|intros (n & _ & H); now apply N in H]|]. unfold rows_of. now rewrite Em.
      + unfold map_of. rewrite Em. cbn [filter]. now rewrite app_nil_r.
      + intros k. unfold whole_of at 3. rewrite Em. now rewrite app_nil_r.
      + intros n. split; [intros []|intros (_ & e & H); now apply N in H].
  Qed.
  Lemma copy_files_spec events files : forall out copied out1 c, copy_files events out copied files = Ok (out1, c) ->
    (forall k, exists parts, Forall2 (fun f kept => chosen events f (rows_of f k) kept) files parts /\ rows_of out1 k = rows_of out k ++ concat parts) /\
    raw_map out1 = raw_map out ++ flat_map (fun f => filter (fun p => memZ (fst p) events) (map_of f)) files /\
    (forall k, whole_of out1 k = whole_of out k ++ flat_map (fun f => whole_of f k) files) /\ (forall n, In n c <-> In n copied \/ (In n events /\ exists f e, In f files /\ numbered f n e)).
  Proof.
    induction files as [|f files IH]; intros out copied out1 c H; cbn [copy_files] in H.
    - injection H as <- <-. split; [|split; [|split]]; cbn [flat_map]; [intros k; exists []; split; [constructor|now rewrite app_nil_r]|now rewrite app_nil_r|intros k; now rewrite app_nil_r|]. intros n. split; [now left|intros [H|(_ & f & e & [] & _)]; assumption].
    - destruct (copy_file events out f) as [[out2 c2]|] eqn:E; [|discriminate]. cbn [rbind] in H. destruct (copy_file_spec events out f out2 c2 E) as (F1 & F2 & F3 & F4). destruct (IH out2 (copied ++ c2) out1 c H) as (G1 & G2 & G3 & G4). split; [|split; [|split]].
      + intros k. destruct (F1 k) as (kept & K1 & K2). destruct (G1 k) as (parts & P1 & P2). exists (kept :: parts). split; [now constructor|]. cbn [concat]. now rewrite P2, K2, app_assoc.
      + cbn [flat_map]. now rewrite G2, F2, app_assoc.
      + intros k. cbn [flat_map]. now rewrite G3, F3, app_assoc.
      + intros n. rewrite G4, in_app_iff, F4. split.
        * intros [[H1|(H1 & e & H2)]|(H1 & g & e & H2 & H3)]; [now left|right; split; [assumption|exists f, e; split; [now left|assumption]]|right; split; [assumption|exists g, e; split; [now right|assumption]]].
        * intros [H1|(H1 & g & e & [<-|H2] & H3)]; [left; now left|left; right; eauto|right; eauto 6].
  Qed.
  (** ** C87: the output has exactly the rows of the events asked for, from each file and in order, their numbers, and the tables without events;
      and every event asked for is in one of the files *)
  Theorem C87_copied files events out : copy_mc_info files new_file events = Ok out ->
    (forall k, exists parts, Forall2 (fun f kept => chosen events f (rows_of f k) kept) files parts /\ rows_of out k = concat parts) /\
    raw_map out = flat_map (fun f => filter (fun p => if in_dec Z.eq_dec (fst p) events then true else false) (map_of f)) files /\
    (forall k, whole_of out k = flat_map (fun f => whole_of f k) files) /\
    (forall n, In n events -> exists f e, In f files /\ numbered f n e).
  Proof.
    unfold copy_mc_info. destruct (copy_files events new_file [] files) as [[out1 c]|] eqn:E; [|discriminate]. cbn [rbind]. destruct (forallb (fun e => memZ e c) events) eqn:A; [|discriminate]. intros [= <-]. destruct (copy_files_spec events files new_file [] out1 c E) as (F1 & F2 & F3 & F4). split; [|split; [|split]].
    - exact F1.
    - rewrite F2. cbn [raw_map new_file f_map app]. assert (Q : forall f, filter (fun p => memZ (fst p) events) (map_of f) = filter (fun p => if in_dec Z.eq_dec (fst p) events then true else false) (map_of f)). { intros f. apply filter_cong. intros p _. destruct (in_dec Z.eq_dec (fst p) events) as [I|I]; [now apply memZ_spec|]. destruct (memZ (fst p) events) eqn:M; [apply memZ_spec in M; contradiction|reflexivity]. }
      clear -Q. induction files as [|f files IH]; [reflexivity|]. cbn [flat_map]. now rewrite Q, IH.
    - exact F3.
    - intros n Hn. rewrite forallb_forall in A. specialize (A n Hn). apply memZ_spec, F4 in A as [[]|[_ A]]. exact A.
  Qed.

  Lemma copy_tables_ok out m which : match f_mc out with Some o => m_mapping o <> Some [] | None => True end -> exists out', copy_tables out m which = Ok out' /\ exists o', f_mc out' = Some o' /\
     m_mapping o' = append (match f_mc out with Some o => m_mapping o | None => None end) (match m_mapping m with Some l => filter (fun e => memZ e which) l | None => which end).
  Proof.
    intros H. unfold copy_tables. destruct (f_mc out) as [o|]; [|eexists; split; [reflexivity|]; eexists; split; reflexivity]. destruct (m_mapping o) as [[|x l]|] eqn:E; [contradiction| |]; (eexists; split; [reflexivity|]; eexists; split; [reflexivity|]; cbn [m_mapping]; try rewrite E; reflexivity).
  Qed.
  Definition mapped out : Prop := exists o x l, f_mc out = Some o /\ m_mapping o = Some (x :: l).
  Lemma select_ok out events m f : readable f -> f_mc f = Some m -> exists out1 sel, safe_copy_nexus_eventmap out events m (f_map f) = Ok (out1, sel) /\ f_mc out1 = f_mc out.
  Proof.
    intros H Em. unfold readable in H. rewrite Em in H. unfold safe_copy_nexus_eventmap. destruct (f_map f) as [l|]; [eexists; eexists; split; reflexivity|]. destruct H as [H|[H1 H2]]; [contradiction|]. unfold get_event_numbers_in_file. destruct (m_data m Particles) as [[|p l]|]; [destruct (m_data m Response); [|contradiction]| |contradiction]; (eexists; eexists; split; reflexivity).
  Qed.
  Lemma copy_file_ok events out f : readable f -> (mapped out \/ (f_mc out = None /\ (f_mc f <> None -> has_event events f))) ->
    exists out1 c, copy_file events out f = Ok (out1, c) /\ (mapped out1 \/ (f_mc out1 = None /\ f_mc f = None)).
  Proof.
    intros Hr H. unfold copy_file. destruct (f_mc f) as [m|] eqn:Em; [|exists out, []; split; [reflexivity|]; destruct H as [H|[H _]]; [now left|now right]].
    destruct (select_ok out events m f Hr Em) as (out1 & sel & S & S1). rewrite S. cbn [rbind]. pose proof (sel_spec out events m f out1 sel Em S) as P.
    destruct (copy_tables_ok out1 m (map snd sel)) as (out2 & C & o' & C1 & C2). { rewrite S1. destruct H as [(o & x & l & -> & ->)|[-> _]]; [discriminate|exact I]. }
    rewrite C. cbn [rbind]. eexists. eexists. split; [reflexivity|]. left. rewrite S1 in C2. destruct H as [(o & x & l & Eo & El)|[Eo He]].
    - rewrite Eo, El in C2. unfold mapped. cbn [append app] in C2. eexists. eexists. eexists. split; [exact C1|exact C2].
    - rewrite Eo in C2. unfold append in C2. specialize (He ltac:(discriminate)). unfold has_event in He. rewrite Em in He. destruct He as (n & e & Hn & Nu & Hm). assert (I : In e (map snd sel)) by (apply in_map_iff; exists (n, e); split; [reflexivity|now apply P]).
      assert (J : In e (match m_mapping m with Some l => filter (fun e => memZ e (map snd sel)) l | None => map snd sel end)) by (destruct (m_mapping m); [apply filter_In; now rewrite memZ_spec|assumption]).
      destruct (match m_mapping m with Some l => filter (fun e => memZ e (map snd sel)) l | None => map snd sel end) as [|x l]; [destruct J|]. exists o', x, l. split; [exact C1|exact C2].
  Qed.
  Lemma copy_files_ok events files : forall out copied, (forall f, In f files -> readable f) -> (mapped out \/ (f_mc out = None /\ starts_with_event events files)) -> exists out1 c, copy_files events out copied files = Ok (out1, c).
  Proof.
    induction files as [|f files IH]; intros out copied Hr H; [eexists; eexists; reflexivity|]. cbn [copy_files]. destruct (copy_file_ok events out f) as (out1 & c & E & D).
    - apply Hr. now left.
    - destruct H as [H|[H1 H2]]; [now left|right; split; [assumption|]]. intros N. apply (H2 [] f files eq_refl N). intros g [].
    - rewrite E. cbn [rbind]. apply IH; [intros; apply Hr; now right|]. destruct D as [D|[D1 D2]]; [now left|]. destruct H as [H|[H1 H2]].
      + exfalso. unfold copy_file in E. rewrite D2 in E. injection E as <- _. destruct H as (o & x & l & Eo & _). congruence.
      + right. split; [assumption|]. intros before g after Eg Ng Hb. apply (H2 (f :: before) g after); [cbn; now rewrite Eg|assumption|]. intros h [<-|Hh]; [assumption|now apply Hb].
  Qed.
  (** ** C87: it works exactly when every event asked for is in one of the files, if the files are readable and the first one has an event *)
  Theorem C87_result files events : (forall f, In f files -> readable f) -> starts_with_event events files ->
    ((forall n, In n events -> exists f e, In f files /\ numbered f n e) -> exists out, copy_mc_info files new_file events = Ok out) /\
    (~ (forall n, In n events -> exists f e, In f files /\ numbered f n e) -> copy_mc_info files new_file events = Err MCEventNotFound).
  Proof.
    intros Hr Hs. destruct (copy_files_ok events files new_file [] Hr) as (out & c & E); [right; now split|]. destruct (copy_files_spec events files new_file [] out c E) as (_ & _ & _ & F4). unfold copy_mc_info. rewrite E. cbn [rbind].
    assert (A : forallb (fun e => memZ e c) events = true <-> forall n, In n events -> exists f e, In f files /\ numbered f n e).
    { rewrite forallb_forall. split; intros H n Hn; [specialize (H n Hn); apply memZ_spec, F4 in H as [[]|[_ H]]; exact H|]. apply memZ_spec, F4. right. split; [assumption|now apply H]. }
    destruct (forallb (fun e => memZ e c) events); split; intros H; [eauto|exfalso; apply H; now apply A|apply A in H; discriminate|reflexivity].
  Qed.

  Lemma filter_concat (p : Z * R -> bool) parts : filter p (concat parts) = concat (map (filter p) parts).
  Proof. induction parts as [|l parts IH]; [reflexivity|]. cbn [concat map]. now rewrite filter_app, IH. Qed.
  Lemma parts_equal events1 events2 k (b2 : Z -> bool) fs p1 p3 : (forall f e, In f fs -> ((b2 e = true /\ exists n, In n events1 /\ numbered f n e) <-> exists n, In n events2 /\ numbered f n e)) ->
    Forall2 (fun f kept => chosen events1 f (rows_of f k) kept) fs p1 -> Forall2 (fun f kept => chosen events2 f (rows_of f k) kept) fs p3 -> map (filter (fun r : Z * R => b2 (fst r))) p1 = p3.
  Proof.
    intros H P1. revert p3. induction P1 as [|f kept fs p1 (b1 & H1 & ->) P1 IH]; intros p3 P3; inversion P3 as [|? kept3 ? p3' (b3 & H3 & ->) P3']; subst; [reflexivity|]. cbn [map]. f_equal; [|apply IH; [intros; apply H; now right|assumption]].
    assert (Q : forall e, (b2 e && b1 e)%bool = b3 e). { intros e. apply eq_true_iff_eq. rewrite andb_true_iff, H1, H3. apply H. now left. }
    generalize (rows_of f k). intros l. induction l as [|r l IHl]; [reflexivity|]. cbn [filter]. rewrite <- (Q (fst r)). destruct (b1 (fst r)); cbn [filter]; [rewrite andb_true_r; destruct (b2 (fst r)); now rewrite IHl|rewrite andb_false_r; exact IHl].
  Qed.
  (** ** C87: copying in two steps, as two cities do, is copying once *)
  Theorem C87_composes files events1 events2 out1 out2 out : (forall f, In f files -> f_mc f <> None -> f_map f <> None) ->
    (forall f g n m e, In f files -> In g files -> numbered f n e -> numbered g m e -> f = g) -> (forall n, In n events2 -> In n events1) ->
    copy_mc_info files new_file events1 = Ok out1 -> copy_mc_info [out1] new_file events2 = Ok out2 -> copy_mc_info files new_file events2 = Ok out ->
    (forall k, rows_of out2 k = rows_of out k) /\ raw_map out2 = raw_map out /\ (forall k, whole_of out2 k = whole_of out k).
  Proof.
    intros Hm Hd Hs E1 E2 E. destruct (C87_copied files events1 out1 E1) as (A1 & A2 & A3 & A4). destruct (C87_copied [out1] events2 out2 E2) as (B1 & B2 & B3 & B4). destruct (C87_copied files events2 out E) as (C1 & C2 & C3 & C4).
    assert (Mc : f_mc out1 = None -> forall f, In f files -> f_mc f = None).
    { clear -E1. unfold copy_mc_info in E1. destruct (copy_files events1 new_file [] files) as [[o c]|] eqn:F; [|discriminate]. cbn [rbind] in E1. destruct (forallb (fun e => memZ e c) events1); [|discriminate]. injection E1 as <-.
      assert (G : forall files out copied o c, copy_files events1 out copied files = Ok (o, c) -> f_mc o = None -> f_mc out = None /\ forall f, In f files -> f_mc f = None).
      { clear. intros files. induction files as [|f files IH]; intros out copied o c H N; cbn [copy_files] in H; [injection H as -> ->; split; [assumption|intros f []]|]. destruct (copy_file events1 out f) as [[o2 c2]|] eqn:F; [|discriminate]. cbn [rbind] in H. destruct (IH o2 (copied ++ c2) o c H N) as [I1 I2]. unfold copy_file in F. destruct (f_mc f) as [m|] eqn:Em.
        - exfalso. destruct (safe_copy_nexus_eventmap out events1 m (f_map f)) as [[o3 sel]|]; [|discriminate]. cbn [rbind] in F. unfold copy_tables in F. destruct (m_mapping (match f_mc o3 with Some o => o | None => empty_mc end)) as [[|]|]; try discriminate; injection F as <- _; discriminate.
        - injection F as <- _. split; [assumption|]. intros g [<-|Hg]; [assumption|now apply I2]. }
      intros N f Hf. destruct (G files new_file [] o c F N) as [_ G2]. now apply G2. }
    assert (Nout : forall n e, numbered out1 n e <-> In n events1 /\ exists f, In f files /\ numbered f n e).
    { assert (Q : forall n e, In (n, e) (raw_map out1) <-> In n events1 /\ exists f, In f files /\ In (n, e) (map_of f)).
      { intros n e. rewrite A2, in_flat_map. split.
        - intros (f & Hf & H). apply filter_In in H as [H1 H2]. cbn [fst] in H2. destruct (in_dec Z.eq_dec n events1); [|discriminate]. eauto.
        - intros (Hn & f & Hf & H). exists f. split; [assumption|]. apply filter_In. split; [assumption|]. cbn [fst]. destruct (in_dec Z.eq_dec n events1); [reflexivity|contradiction]. }
      assert (Mf : forall f n e, In f files -> (In (n, e) (map_of f) <-> numbered f n e)).
      { intros f n e Hf. unfold map_of, numbered. destruct (f_mc f) as [m|] eqn:Em; [|cbn; tauto]. pose proof (Hm f Hf) as H. rewrite Em in H. specialize (H ltac:(discriminate)). destruct (f_map f); [|contradiction]. split; [intros I; split; [discriminate|assumption]|tauto]. }
      intros n e. unfold numbered at 1. destruct (f_map out1) as [l|] eqn:El.
      - assert (R1 : raw_map out1 = l) by (unfold raw_map; now rewrite El). rewrite <- R1, Q. split.
        + intros (_ & Hn & f & Hf & H). split; [assumption|]. exists f. split; [assumption|now apply Mf].
        + intros (Hn & f & Hf & H). split; [intros C; specialize (Mc C f Hf); destruct H as [H _]; contradiction|]. split; [assumption|]. exists f. split; [assumption|now apply Mf].
      - split.
        + intros (Nn & -> & H). exfalso. assert (F : forall f, In f files -> f_mc f = None).
          { clear -E1 El Hm. unfold copy_mc_info in E1. destruct (copy_files events1 new_file [] files) as [[o c]|] eqn:F; [|discriminate]. cbn [rbind] in E1. destruct (forallb (fun e => memZ e c) events1); [|discriminate]. injection E1 as <-.
            assert (G : forall files out copied o c, (forall f, In f files -> f_mc f <> None -> f_map f <> None) -> copy_files events1 out copied files = Ok (o, c) -> f_map o = None -> f_map out = None /\ forall f, In f files -> f_mc f = None).
            { clear. intros files. induction files as [|f files IH]; intros out copied o c Hm H N; cbn [copy_files] in H; [injection H as -> ->; split; [assumption|intros f []]|]. destruct (copy_file events1 out f) as [[o2 c2]|] eqn:F; [|discriminate]. cbn [rbind] in H. destruct (IH o2 (copied ++ c2) o c) as [I1 I2]; [intros; apply Hm; [now right|assumption]|assumption|assumption|]. unfold copy_file in F. destruct (f_mc f) as [m|] eqn:Em.
              - exfalso. assert (M : f_map f <> None) by (apply Hm; [now left|rewrite Em; discriminate]). destruct (f_map f) as [l|]; [|contradiction]. cbn [safe_copy_nexus_eventmap rbind] in F. unfold copy_tables in F. destruct (m_mapping _) as [[|]|]; try discriminate; injection F as <- _; discriminate.
              - injection F as <- _. split; [assumption|]. intros g [<-|Hg]; [assumption|now apply I2]. }
            destruct (G files new_file [] o c Hm F El) as [_ G2]. exact G2. }
          assert (Z1 : forall k, rows_of out1 k = []). { intros k. destruct (A1 k) as (parts & P1 & ->). clear -P1 F. induction P1 as [|f kept files parts (b & _ & ->) _ IH]; [reflexivity|]. cbn [concat]. rewrite IH by (intros; apply F; now right). unfold rows_of. now rewrite F by now left. }
          unfold known_events in H. rewrite !Z1 in H. destruct H.
        + intros (Hn & f & Hf & H). exfalso. apply Mf in H; [|assumption]. unfold raw_map in Q. rewrite El in Q. apply (Q n e). eauto. }
    split; [|split].
    - intros k. destruct (A1 k) as (p1 & P1 & R1). destruct (B1 k) as (p2 & P2 & R2). destruct (C1 k) as (p3 & P3 & R3). inversion P2 as [|? kept ? ? (b2 & Hb2 & Kb) Pn]; subst. inversion Pn; subst. cbn [concat] in R2. rewrite app_nil_r in R2. rewrite R2, R1, R3, filter_concat. f_equal.
      apply (parts_equal events1 events2 k b2 files); [|assumption|assumption]. intros f e Hf. rewrite Hb2. split.
      + intros [(n2 & Hn2 & H2) (n1 & Hn1 & H1)]. apply Nout in H2 as (_ & g & Hg & H2). assert (f = g) as -> by (apply (Hd f g n1 n2 e); assumption). eauto.
      + intros (n & Hn & H). split; [exists n; split; [assumption|]; apply Nout; eauto|eauto].
    - rewrite B2, C2. cbn [flat_map]. rewrite app_nil_r.
      assert (M : map_of out1 = raw_map out1). { unfold map_of, raw_map. destruct (f_mc out1) as [o|] eqn:Eo; [reflexivity|]. fold (raw_map out1). rewrite A2. symmetry. clear -Mc. specialize (Mc eq_refl). induction files as [|f fs IH]; [reflexivity|]. cbn [flat_map]. rewrite IH by (intros; apply Mc; now right). unfold map_of. now rewrite Mc by now left. }
      rewrite M, A2. clear -Hs. induction files as [|f fs IH]; [reflexivity|]. cbn [flat_map]. rewrite filter_app, IH. f_equal. induction (map_of f) as [|p l IHl]; [reflexivity|]. cbn [filter]. destruct (in_dec Z.eq_dec (fst p) events1) as [I|I]; cbn [filter]; destruct (in_dec Z.eq_dec (fst p) events2) as [J|J]; rewrite ?IHl; try reflexivity. exfalso. apply I, Hs, J.
    - intros k. rewrite B3, C3. cbn [flat_map]. rewrite app_nil_r. apply A3.
  Qed.
End Rows.
Print Assumptions C87_copied.
Print Assumptions C87_result.
Print Assumptions C87_composes.

(** two files: one with numbers of its own, where two numbers are of the same simulated event, and one without simulation *)
Definition demo_mc (h p r : list (Z * nat)) : mc nat := {| m_data := fun k => match k with Hits => Some h | Particles => Some p | Response => Some r end; m_mapping := Some (map fst p); m_whole := fun k => match k with Config => Some [7%nat] | _ => None end |}.
Definition demo_a : file nat := {| f_mc := Some (demo_mc [(1, 10%nat); (2, 20%nat); (1, 11%nat)] [(1, 0%nat); (2, 0%nat)] []); f_map := Some [(100, 1); (101, 1); (200, 2)] |}.
Definition demo_b : file nat := {| f_mc := None; f_map := None |}.
Definition demo_c : file nat := {| f_mc := Some (demo_mc [(5, 50%nat)] [(5, 0%nat)] []); f_map := Some [(500, 5)] |}.
Example C87_ex : (forall f, In f [demo_b; demo_a; demo_c] -> readable f) /\ starts_with_event [101; 500] [demo_b; demo_a; demo_c] /\
  (forall n, In n [101; 500] -> exists f e, In f [demo_b; demo_a; demo_c] /\ numbered f n e) /\
  exists out, copy_mc_info [demo_b; demo_a; demo_c] new_file [101; 500] = Ok out /\ rows_of out Hits = [(1, 10%nat); (1, 11%nat); (5, 50%nat)] /\ raw_map out = [(101, 1); (500, 5)] /\ whole_of out Config = [7; 7]%nat.
Proof.
  split; [|split; [|split]].
  - intros f [<-|[<-|[<-|[]]]]; cbn; [exact I|left; discriminate|left; discriminate].
  - intros before f after E N B. destruct before as [|g before]; injection E as <- E; [contradiction|]. destruct before as [|g before]; injection E as <- E; [|exfalso; specialize (B demo_a); discriminate B; right; now left].
    exists 101, 1. split; [now left|]. split; [split; [discriminate|right; now left]|now left].
  - intros n [<-|[<-|[]]]; [exists demo_a, 1; split; [right; now left|split; [discriminate|right; now left]]|exists demo_c, 5; split; [right; right; now left|split; [discriminate|now left]]].
  - eexists. repeat split; reflexivity.
Qed.
Example C87_composes_ex : (forall f g n m e, In f [demo_a; demo_c] -> In g [demo_a; demo_c] -> numbered f n e -> numbered g m e -> f = g) /\
  exists out1 out2 out, copy_mc_info [demo_a; demo_c] new_file [101; 200; 500] = Ok out1 /\ copy_mc_info [out1] new_file [500; 101] = Ok out2 /\ copy_mc_info [demo_a; demo_c] new_file [500; 101] = Ok out /\ rows_of out2 Hits = [(1, 10%nat); (1, 11%nat); (5, 50%nat)].
Proof.
  split; [|eexists; eexists; eexists; repeat split; reflexivity].
  intros f g n m e [<-|[<-|[]]] [<-|[<-|[]]] [_ H1] [_ H2]; cbn in H1, H2; try reflexivity; exfalso; intuition congruence.
Qed.
(** An event with hits and light but no particles is not found when the file has no numbers of its own *)
Theorem C87_no_particles_refuted : copy_mc_info [{| f_mc := Some (demo_mc [(1, 10%nat); (2, 20%nat)] [(1, 0%nat)] [(1, 3%nat); (2, 4%nat)]); f_map := None |}] new_file [1; 2] = Err MCEventNotFound.
Proof. reflexivity. Qed.
Print Assumptions C87_no_particles_refuted.
(** When no event of the first file is asked for, the second one cannot be copied *)
Theorem C87_first_refuted : copy_mc_info [demo_a; demo_c] new_file [500] = Err IndexError.
Proof. reflexivity. Qed.
Print Assumptions C87_first_refuted.
(** When two files share simulated events, a second city copies rows that were not asked for: here the hit 90 of event 900 *)
Theorem C87_shared_refuted : let d := {| f_mc := Some (demo_mc [(1, 90%nat)] [(1, 0%nat)] []); f_map := Some [(900, 1)] |} in
  exists out1 out2 out, copy_mc_info [demo_a; d] new_file [101; 900] = Ok out1 /\ copy_mc_info [out1] new_file [101] = Ok out2 /\ copy_mc_info [demo_a; d] new_file [101] = Ok out /\
  rows_of out Hits = [(1, 10%nat); (1, 11%nat)] /\ rows_of out2 Hits = [(1, 10%nat); (1, 11%nat); (1, 90%nat)].
Proof. eexists. eexists. eexists. repeat split; reflexivity. Qed.
Print Assumptions C87_shared_refuted.
