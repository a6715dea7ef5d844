(** C106: the table of pointlike events of a run of dorothea *)
From Coq Require Import NArith.
From Verif Require Import Base PeaksModel BuffersModel ReadModel PmapioModel PmapioSpec FiltersModel FiltersSpec FiltersProps XyModel SophModel KrModel KrSpec KrProps CalibModel IreneModel IreneSpec IreneProofs IrunModel IrunSpec IrunProps PreadModel PreadSpec PreadProps DorModel DorSpec.
Local Open Scope nat_scope.

Lemma only_marked {A} (P : A -> Prop) flags l : Forall2 (fun a b => b = true <-> P a) l flags -> exists out, marked flags l out /\ only P l out.
Proof.
  induction 1 as [|a b l fs H F (out & M & O)]; [exists []; split; constructor|]. destruct b.
  - exists (a :: out). split; constructor; [exact M|now apply H|exact O].
  - exists out. split; constructor; [exact M|intros Hp; apply H in Hp; discriminate|exact O].
Qed.
Lemma only_filter {A} (P : A -> Prop) (f : A -> bool) l : (forall a, In a l -> (f a = true <-> P a)) -> only P l (filter f l).
Proof.
  induction l as [|a l IH]; intros H; [constructor|]. cbn. assert (H' := H a (or_introl eq_refl)). destruct (f a); constructor; try (apply IH; intros; apply H; now right); [now apply H'|].
  intros Hp. apply H' in Hp. discriminate.
Qed.
Lemma only_in {A} (P : A -> Prop) l out a : only P l out -> In a out -> In a l /\ P a.
Proof. induction 1 as [|x l out Hx O IH|x l out Hx O IH]; intros Hi; [easy| |split; [right|]; now apply IH]. destruct Hi as [<-|Hi]; [split; [now left|exact Hx]|split; [right|]; now apply IH]. Qed.
Lemma only_how_many {A} (P : A -> Prop) l out n : only P l out -> how_many P l n -> length out = n.
Proof. intros O. revert n. induction O as [|x l out Hx O IH|x l out Hx O IH]; intros n H; inversion H; subst; try tauto; cbn; auto. Qed.
Lemma fancy_ok {A} (l : list A) ids : Forall (fun i => i < length l) ids -> exists out, fancy l ids = Ok out /\ Forall2 (fun i a => nth_error l i = Some a) ids out.
Proof.
  induction 1 as [|i ids Hi H (out & E & F)]; [exists []; split; [reflexivity|constructor]|]. destruct (nth_error l i) as [a|] eqn:Ea; [|apply nth_error_None in Ea; lia].
  exists (a :: out). split; [|now constructor]. unfold fancy in *. cbn [rmap]. rewrite Ea. cbn [rbind]. now rewrite E.
Qed.

(** the three ways a barycenter fails, and what it gives otherwise *)
Lemma bary_cases qthr (ss : list sensor) : ss <> [] -> let g := filter (fun s => Qle_bool qthr (charge s)) ss in
  (exists e, barycenter ss qthr = Err e /\ xy_reco_fail e = true /\ (sumF charge ss == 0 \/ sumF charge g == 0)%Q) \/
  (~ sumF charge ss == 0)%Q /\ (~ sumF charge g == 0)%Q /\ barycenter ss qthr = Ok {| XyModel.cQ := sumF charge g; cx := waverage charge sX g; cy := waverage charge sY g;
     cvx := waverage charge (fun s => (sX s - waverage charge sX g) * (sX s - waverage charge sX g))%Q g; cvy := waverage charge (fun s => (sY s - waverage charge sY g) * (sY s - waverage charge sY g))%Q g; cn := length g |}.
Proof.
  intros Hs g. unfold barycenter, threshold_check. fold g. destruct ss as [|s0 ss0]; [easy|].
  destruct (Qeqb_spec (sumF charge (s0 :: ss0)) 0) as [Z|Z]; [left; exists SipmZeroCharge; split; [reflexivity|]; split; [reflexivity|now left]|].
  clearbody g. destruct g as [|g0 g1]; [left; exists SipmEmptyListAboveQthr; split; [reflexivity|]; split; [reflexivity|right; reflexivity]|].
  destruct (Qeqb_spec (sumF charge (g0 :: g1)) 0) as [Z'|Z']; [left; exists SipmZeroChargeAboveQthr; split; [reflexivity|]; split; [reflexivity|now right]|].
  right. split; [exact Z|]. split; [exact Z'|reflexivity].
Qed.

Section Dor.
  Variables (xys : list (Q * Q)) (v : Q) (noise : list nat -> list Q -> Z -> list Q) (sw : Q -> Z) (ct : charge_type) (sqrt : Q -> Q) (atan : Q -> Q -> Q) (qthr : Q).
  Notation charges := (charge_single noise sw ct).
  Notation reco := (reco sqrt atan qthr).
  Notation rms := (rms sqrt).

  (** the SiPMs of a peak are in the database, and there is a charge for each *)
  Definition fits (p : peak) : Prop := Forall (fun i => i < length xys) (r_ids (p_sipms p)) /\ length (charges p) = length (r_ids (p_sipms p)).

  Definition place (p : peak) : option krcluster :=
    match fancy xys (r_ids (p_sipms p)) with
    | Ok ps => match barycenter (combine ps (charges p)) qthr with Ok c => Some (attributes sqrt atan c) | Err _ => None end
    | Err _ => None
    end.

  Lemma combine_pos (ids : list nat) (ps : list (Q * Q)) (qs : list Q) : Forall2 (fun i a => nth_error xys i = Some a) ids ps -> length qs = length ids ->
    Forall2 (fun i s => nth_error xys i = Some (fst s)) ids (combine ps qs) /\ map snd (combine ps qs) = qs.
  Proof.
    intros F. revert qs. induction F as [|i a ids ps H F IH]; intros [|q qs] L; try discriminate; [split; [constructor|reflexivity]|]. cbn in *. destruct (IH qs) as [A B]; [lia|]. split; [constructor; assumption|now f_equal].
  Qed.

  Lemma div_mul_cancel (a b : Q) : ~ (b == 0)%Q -> (a / b * b == a)%Q. Proof. intros H. field. exact H. Qed.

  Lemma placed p : fits p -> r_ids (p_sipms p) <> [] -> located xys charges reco place p /\ position_of xys charges sqrt atan qthr p (place p).
  Proof.
    intros [Fi L] Hn. destruct (fancy_ok xys _ Fi) as (ps & E & F). assert (Lp : length ps = length (charges p)) by (rewrite L; symmetry; apply (Forall2_len _ _ _ F)).
    destruct (combine_pos _ _ _ F L) as (S1 & S2). set (ss := combine ps (charges p)) in *. set (g := filter (fun s => Qle_bool qthr (charge s)) ss).
    assert (Og : only (fun s => qthr <= snd s)%Q ss g) by (apply only_filter; intros a _; apply Qle_bool_iff).
    assert (Hc : charges p <> []) by (destruct (charges p); [destruct (r_ids (p_sipms p)); [easy|discriminate L]|discriminate]).
    assert (Hs : ss <> []) by (unfold ss; destruct (charges p), ps; try discriminate; easy).
    pose proof (bary_cases qthr ss Hs) as B. cbv zeta in B. fold g in B.
    unfold located, position_of. unfold place. rewrite E. fold ss. destruct B as [(e & Eb & Er & Z)|(Z1 & Z2 & Eb)]; rewrite Eb.
    - split.
      + split; [exact Hc|]. exists ps. split; [exact Hn|]. split; [first [exact E|reflexivity]|]. unfold DorModel.reco. rewrite Lp, Nat.eqb_refl. cbn [negb]. fold ss. now rewrite Eb, Er.
      + exists ss, g. split; [split; assumption|]. split; [exact Og|]. exact Z.
    - split.
      + split; [exact Hc|]. exists ps. split; [exact Hn|]. split; [first [exact E|reflexivity]|]. exists []. unfold DorModel.reco. rewrite Lp, Nat.eqb_refl. cbn [negb]. fold ss. now rewrite Eb.
      + exists ss, g. split; [split; assumption|]. split; [exact Og|]. cbv zeta. split; [exact Z1|]. split; [exact Z2|].
        eexists _, _, _, _, _. split; [|reflexivity]. cbn [cx cy cvx cvy XyModel.cQ]. repeat split; reflexivity.
  Qed.

  Lemma rows_of c s it : mk_selector c = Ok s -> (1 <= fst (s2_n c))%Q -> (1 <= fst (s2_nsipm c))%Q -> (forall p, In p (s2s (pi_pmap it)) -> fits p) ->
    passed (pmap_filter s (pi_pmap it)) = true ->
    exists e rows, build_pointlike_event xys v charges rms reco (pi_pmap it) (pmap_filter s (pi_pmap it)) (pi_event it) (pi_time it) = Ok e /\ kr_store e = Ok rows /\
      event_rows xys charges sqrt atan qthr c v rms it rows.
  Proof.
    intros Hs N1 N2 Fp P. destruct (C36_selection c s (pi_pmap it) Hs) as (F1 & F2 & A). apply A in P. destruct P as (n1 & n2 & H1 & H2 & _ & B2).
    destruct (only_marked _ _ _ F1) as (l1 & M1 & O1), (only_marked _ _ _ F2) as (l2 & M2 & O2).
    assert (Hl2 : l2 <> []). { intros ->. apply (only_how_many _ _ _ _ O2) in H2. subst n2. unfold between in B2. cbn [length] in B2. assert (qn 0 == 0)%Q by reflexivity. lra. }
    assert (Pl : forall p, In p l2 -> located xys charges reco place p /\ position_of xys charges sqrt atan qthr p (place p)).
    { intros p Hp. destruct (only_in _ _ _ _ O2 Hp) as (Hp' & (_ & _ & _ & (B & _))). apply placed; [now apply Fp|]. intros En. rewrite En in B. cbn [length] in B. assert (qn 0 == 0)%Q by reflexivity. lra. }
    destruct (C52_one_row_per_pair xys v charges rms reco place (pi_pmap it) (pmap_filter s (pi_pmap it)) (pi_event it) (pi_time it) l1 l2 M1 M2 Hl2) as (e & rows & E1 & E2 & F).
    { apply Forall_forall. intros p Hp. now apply Pl. }
    exists e, rows. split; [exact E1|]. split; [exact E2|]. exists l1, l2, place. split; [exact O1|]. split; [exact O2|]. split; [intros p Hp; now apply Pl|exact F].
  Qed.

  Definition grown (c : limits) (items kept : list pitem) (rowss : list (list krrow)) (o o' : dout) : Prop :=
    exists flags, do_filter o' = do_filter o ++ flags /\ Forall2 (fun it f => fst f = pi_event it /\ (snd f = true <-> accepted c (pi_pmap it))) items flags /\
    do_rows o' = do_rows o ++ concat rowss /\ do_info o' = do_info o ++ map (fun it => (pi_run it, pi_event it, pi_time it)) kept /\
    do_numbers o' = do_numbers o ++ map pi_event kept /\ do_in o' = do_in o + length items /\ do_out o' = do_out o + length kept /\
    do_passed o' = do_passed o + length kept /\ do_failed o' + length kept = do_failed o + length items.

  Lemma run_grown c s items o : mk_selector c = Ok s -> (1 <= fst (s2_n c))%Q -> (1 <= fst (s2_nsipm c))%Q ->
    (forall it p, In it items -> In p (s2s (pi_pmap it)) -> fits p) ->
    exists o' kept rowss, dorothea_run xys v noise sw ct sqrt atan qthr s items o = Ok o' /\ only (fun it => accepted c (pi_pmap it)) items kept /\
      Forall2 (event_rows xys charges sqrt atan qthr c v rms) kept rowss /\ grown c items kept rowss o o'.
  Proof.
    intros Hs N1 N2. revert o. induction items as [|it items IH]; intros o Fp.
    - exists o, [], []. split; [reflexivity|]. split; [constructor|]. split; [constructor|]. exists []. cbn. rewrite !app_nil_r, !Nat.add_0_r. repeat split; constructor.
    - pose proof (proj2 (proj2 (C36_selection c s (pi_pmap it) Hs))) as A. cbn [dorothea_run]. destruct (passed (pmap_filter s (pi_pmap it))) eqn:P.
      + destruct (rows_of c s it Hs N1 N2 (fun p => Fp it p (or_introl eq_refl)) P) as (e & rows & E1 & E2 & R). rewrite E1. cbn [rbind]. rewrite E2. cbn [rbind].
        match goal with |- context [dorothea_run _ _ _ _ _ _ _ _ _ _ ?o1] => destruct (IH o1) as (o' & kept & rowss & D & O & F & (fl & G1 & G2 & G3 & G4 & G5 & G6 & G7 & G8 & G9)); [intros; eapply Fp; [right|]; eassumption|] end.
        exists o', (it :: kept), (rows :: rowss). split; [exact D|]. split; [constructor; [now apply A|exact O]|]. split; [now constructor|]. exists ((pi_event it, true) :: fl). cbn [do_filter do_rows do_info do_numbers do_in do_out do_passed do_failed] in *.
        rewrite <- app_assoc in G1, G3, G4, G5. cbn [app concat map length] in *. split; [exact G1|]. split; [constructor; [split; [reflexivity|exact A]|exact G2]|]. split; [exact G3|]. split; [exact G4|]. split; [exact G5|]. lia.
      + match goal with |- context [dorothea_run _ _ _ _ _ _ _ _ _ _ ?o1] => destruct (IH o1) as (o' & kept & rowss & D & O & F & (fl & G1 & G2 & G3 & G4 & G5 & G6 & G7 & G8 & G9)); [intros; eapply Fp; [right|]; eassumption|] end.
        exists o', kept, rowss. split; [exact D|]. split; [constructor; [intros K; apply A in K; discriminate|exact O]|]. split; [exact F|]. exists ((pi_event it, false) :: fl). cbn [do_filter do_rows do_info do_numbers do_in do_out do_passed do_failed] in *.
        rewrite <- app_assoc in G1. cbn [app concat map length] in *. split; [exact G1|]. split; [constructor; [split; [reflexivity|exact A]|exact G2]|]. split; [exact G3|]. split; [exact G4|]. split; [exact G5|]. lia.
  Qed.

  (** what the tables and counters of a run hold, for the events [items] of its input *)
  Definition krypton_file (c : limits) (items : list pitem) (o : dout) : Prop :=
    exists kept rowss, only (fun it => accepted c (pi_pmap it)) items kept /\
      Forall2 (event_rows xys charges sqrt atan qthr c v rms) kept rowss /\ do_rows o = concat rowss /\
      Forall2 (fun it f => fst f = pi_event it /\ (snd f = true <-> accepted c (pi_pmap it))) items (do_filter o) /\
      do_info o = map (fun it => (pi_run it, pi_event it, pi_time it)) kept /\ do_numbers o = map pi_event kept /\
      do_in o = length items /\ do_out o = length kept /\ do_passed o = length kept /\ do_passed o + do_failed o = length items.

  Theorem C106_run c files items : limits_ok c -> (1 <= fst (s2_n c))%Q -> (1 <= fst (s2_nsipm c))%Q ->
    pmap_from_files files = (items, None) -> (forall it p, In it items -> In p (s2s (pi_pmap it)) -> fits p) ->
    exists o, dorothea xys v noise sw ct sqrt atan qthr c files = Ok o /\ krypton_file c items o.
  Proof.
    intros Lim N1 N2 R Fp. apply (proj1 (C36_limits c)) in Lim. destruct Lim as (s & Hs). destruct (run_grown c s items no_output Hs N1 N2 Fp) as (o & kept & rowss & D & O & F & (fl & G1 & G2 & G3 & G4 & G5 & G6 & G7 & G8 & G9)).
    exists o. split; [unfold dorothea; rewrite Hs; cbn [rbind]; rewrite R, D; reflexivity|]. exists kept, rowss. split; [exact O|]. split; [exact F|]. cbn in *. rewrite G1, G3, G4, G5, G6, G7, G8. split; [reflexivity|]. split; [exact G2|]. repeat split; try reflexivity. lia.
  Qed.

  (** an exception of the reader reaches the caller, whatever was done before *)
  Theorem C106_bad_file c files items e : limits_ok c -> (1 <= fst (s2_n c))%Q -> (1 <= fst (s2_nsipm c))%Q ->
    pmap_from_files files = (items, Some e) -> (forall it p, In it items -> In p (s2s (pi_pmap it)) -> fits p) ->
    dorothea xys v noise sw ct sqrt atan qthr c files = Err e.
  Proof.
    intros Lim N1 N2 R Fp. apply (proj1 (C36_limits c)) in Lim. destruct Lim as (s & Hs). destruct (run_grown c s items no_output Hs N1 N2 Fp) as (o & kept & rowss & D & _).
    unfold dorothea. rewrite Hs. cbn [rbind]. now rewrite R, D.
  Qed.
End Dor.
Print Assumptions C106_run.
Print Assumptions C106_bad_file.

(** the file of a run of irene (C104), read by a run of dorothea *)
Lemma sipm_bound sipms rs i id dw : nth_error (sipms_in_use sipms rs) i = Some (id, dw) -> id < length sipms.
Proof. intros H. apply nth_error_In in H. unfold sipms_in_use in H. apply filter_In in H. destruct H as [H _]. apply in_combine_l in H. apply in_seq in H. lia. Qed.
Lemma irene_fits butter sqrt0 pmts sipms p ns r m e pm f32 xys noise sw pk : length xys = length sipms -> right_pmap butter sqrt0 pmts sipms p ns r m e (Some pm) ->
  In pk (s2s (round_pmap f32 pm)) -> fits xys noise sw Raw pk.
Proof.
  intros Lx (xs & css & i1 & i2 & _ & _ & _ & _ & H). cbv zeta in H. destruct H as (_ & _ & _ & _ & (gs & good & _ & _ & F)) . intros Hp. cbn [round_pmap s2s] in Hp. apply in_map_iff in Hp. destruct Hp as (q & <- & Hq).
  apply In_nth_error in Hq. destruct Hq as (k & Hk). destruct (forall2_nth_error_r _ _ _ _ _ F Hk) as (g & _ & (a & b & _ & _ & _ & _ & _ & _ & _ & (L & O & _))).
  unfold fits, charge_single, sum_over_times, round_peak. cbn [p_sipms]. destruct (r_ids (p_sipms q)) as [|id0 ids] eqn:Ei; [split; [constructor|reflexivity]|]. rewrite <- Ei in *. cbn [round_responses r_ids r_wfs rows]. split.
  - apply Forall_forall. intros id Hi. apply In_nth_error in Hi. destruct Hi as (j & Hj). destruct (nth_error (rows (r_wfs (p_sipms q))) j) as [row|] eqn:Er.
    + destruct (O j id row Hj Er) as (i & dw & cs & Hu & _). apply sipm_bound in Hu. lia.
    + apply nth_error_None in Er. assert (j < length (r_ids (p_sipms q))) by (apply nth_error_Some; congruence). lia.
  - rewrite !map_length. lia.
Qed.
Lemma found_in events pms x : In x (found (combine events pms)) -> In (fst x, Some (snd x)) (combine events pms).
Proof. destruct x as [e pm]. intros H. now apply in_found in H. Qed.
Lemma f2_in_r {A B} (R : A -> B -> Prop) l l' b : Forall2 R l l' -> In b l' -> exists a, In a l /\ R a b.
Proof. induction 1 as [|x y l l' H F IH]; [easy|]. intros [<-|Hb]; [exists x; split; [now left|exact H]|]. destruct (IH Hb) as (a & Ha & Hr). exists a. split; [now right|exact Hr]. Qed.

Theorem C106_irene butter sqrt f32 pmts sipms p ns nss r m events run xys v noise sw atan qthr c :
  (forall e, In e events -> good_event pmts sipms p ns nss (re_pmt e) (re_sipm e) r m) -> selection_fits sipms (cut p) ->
  NoDup (map re_number events) -> NoDup (map pm_id (filter pm_active pmts)) -> (N.of_nat ns <= 65536)%N ->
  length xys = length sipms -> limits_ok c -> (1 <= fst (s2_n c))%Q -> (1 <= fst (s2_nsipm c))%Q ->
  exists o pms items d,
    irene_run f32 (irene_event butter sqrt pmts sipms p ns nss) events nothing_written = Ok o /\
    dorothea xys v noise sw Raw sqrt atan qthr c [irene_file run o] = Ok d /\
    Forall2 (right_pmap butter sqrt pmts sipms p ns r m) events pms /\
    Forall2 (fun x it => pi_event it = re_number (fst x) /\ pi_time it = re_time (fst x) /\ pi_run it = run /\ pi_pmap it = round_pmap f32 (snd x)) (found (combine events pms)) items /\
    krypton_file xys v noise sw Raw sqrt atan qthr c items d.
Proof.
  intros G F ND NI Hn Lx Lim N1 N2. destruct (C105_irene butter sqrt f32 pmts sipms p ns nss r m events run G F ND NI Hn) as (o & pms & items & R & P & E & I).
  destruct (C106_run xys v noise sw Raw sqrt atan qthr c [irene_file run o] items Lim N1 N2 E) as (d & D & K).
  - intros it pk Hi Hp. destruct (f2_in_r _ _ _ _ I Hi) as ([e pm] & Hf & (_ & _ & _ & Er)). cbn [fst snd] in *. rewrite Er in Hp. apply found_in in Hf. cbn [fst snd] in Hf.
    assert (X : right_pmap butter sqrt pmts sipms p ns r m e (Some pm)). { clear -P Hf. induction P as [|a b es ps H1 P IH]; [easy|]. destruct Hf as [Eq|Hf]; [now injection Eq as -> ->|auto]. }
    exact (irene_fits butter sqrt pmts sipms p ns r m e pm f32 xys noise sw pk Lx X Hp).
  - exists o, pms, items, d. split; [exact R|]. split; [exact D|]. split; [exact P|]. split; [exact I|exact K].
Qed.
Print Assumptions C106_irene.

(** three events: one S1 and one S2; one with two S2s, that is not accepted; one with an S2 whose charges are below the threshold *)
Definition s2_at (t : Q) (ids : list nat) (q : list (list Q)) : peak :=
  {| p_times := [t]; p_widths := [1]%Q; p_pmts := {| r_ids := [0]; r_wfs := {| cols := 1; rows := [[50]]%Q |} |}; p_sipms := {| r_ids := ids; r_wfs := {| cols := 1; rows := q |} |} |}.
Definition dor_s1 : peak := {| p_times := [1]%Q; p_widths := [1]%Q; p_pmts := {| r_ids := [0]; r_wfs := {| cols := 1; rows := [[5]]%Q |} |}; p_sipms := empty_responses |}.
Definition dor_events : list written_event :=
  [{| we_number := 7; we_time := 1000; we_pmap := {| s1s := [dor_s1]; s2s := [s2_at 11 [0; 1] [[30]; [10]]%Q] |} |};
   {| we_number := 8; we_time := 2000; we_pmap := {| s1s := [dor_s1]; s2s := [s2_at 11 [0] [[30]]%Q; s2_at 20 [1] [[30]]%Q] |} |};
   {| we_number := 9; we_time := 3000; we_pmap := {| s1s := [dor_s1]; s2s := [s2_at 21 [1] [[2]]%Q] |} |}].
Definition file_of (l : list written_event) : pfile :=
  {| pf_tables := match store_pmaps (fun x => x) empty_tables (map (fun e => (we_number e, we_pmap e)) l) with Ok t => Some t | Err _ => None end;
     pf_runs := Some (map (fun _ => 5%Z) l); pf_events := Some (map (fun e => (we_number e, we_time e)) l) |}.
Definition big : Q * Q := (0, 1000)%Q.
Definition dor_limits (n2 nsi : Q) : limits :=
  {| s1_n := (1, 1)%Q; s1_e := big; s1_w := big; s1_h := big; s1_thr := 0; s2_n := (n2, 1)%Q; s2_e := big; s2_w := big; s2_h := big; s2_nsipm := (nsi, 10)%Q; s2_thr := 0 |}%Q.
Definition dor_run (n2 nsi : Q) (l : list written_event) : result dout := dorothea [(0, 0); (40, 80)]%Q 1 (fun _ q _ => q) (fun _ => 1%Z) Raw (fun x => x) (fun _ _ => 0%Q) 5 (dor_limits n2 nsi) [file_of l].

Example C106_example :
  limits_ok (dor_limits 1 1) /\ (forall it p, In it (fst (pmap_from_files [file_of dor_events])) -> In p (s2s (pi_pmap it)) -> fits [(0, 0); (40, 80)]%Q (fun _ q _ => q) (fun _ => 1%Z) Raw p) /\
  snd (pmap_from_files [file_of dor_events]) = None /\
  match dor_run 1 1 dor_events with
  | Ok o => do_filter o = [(7%Z, true); (8%Z, false); (9%Z, true)] /\ do_numbers o = [7%Z; 9%Z] /\
            map (fun w => (w_event w, option_map Qred (w_X w), option_map Qred (w_Y w))) (do_rows o) = [(7%Z, Some 10%Q, Some 20%Q); (9%Z, Some (-999999)%Q, Some (-999999)%Q)]
  | Err _ => False
  end.
Proof.
  split; [unfold limits_ok, ordered; cbn; repeat split; unfold Qle; cbn; lia|]. split.
  - intros it p Hi Hp. vm_compute in Hi. destruct Hi as [<-|[<-|[<-|[]]]]; cbn in Hp; repeat (destruct Hp as [<-|Hp]; [split; [repeat constructor|reflexivity]|]); destruct Hp.
  - split; [vm_compute; reflexivity|]. vm_compute. repeat split.
Qed.

Lemma accepted_by c pm : match mk_selector c with Ok s => passed (pmap_filter s pm) | Err _ => false end = true -> accepted c pm.
Proof. destruct (mk_selector c) as [s|] eqn:E; [|discriminate]. intros H. exact (proj1 (proj2 (proj2 (C36_selection _ _ _ E))) H). Qed.

(** the lower limits on the numbers of S2s and of their SiPMs are needed: without them an event is accepted that stops the run *)
Theorem C106_no_s2_refuted : exists l, limits_ok (dor_limits 0 1) /\ (exists it, pmap_from_files [file_of l] = ([it], None) /\ accepted (dor_limits 0 1) (pi_pmap it)) /\ dor_run 0 1 l = Err TypeError.
Proof.
  exists [{| we_number := 7; we_time := 1000; we_pmap := {| s1s := [dor_s1]; s2s := [] |} |}]. split; [unfold limits_ok, ordered; cbn; repeat split; unfold Qle; cbn; lia|]. split; [|vm_compute; reflexivity].
  eexists. split; [vm_compute; reflexivity|]. apply (accepted_by (dor_limits 0 1)). vm_compute. reflexivity.
Qed.
Theorem C106_no_sipms_refuted : exists l, limits_ok (dor_limits 1 0) /\ (exists it, pmap_from_files [file_of l] = ([it], None) /\ accepted (dor_limits 1 0) (pi_pmap it)) /\ dor_run 1 0 l = Err IndexError.
Proof.
  exists [{| we_number := 7; we_time := 1000; we_pmap := {| s1s := [dor_s1]; s2s := [s2_at 11 [] []] |} |}]. split; [unfold limits_ok, ordered; cbn; repeat split; unfold Qle; cbn; lia|]. split; [|vm_compute; reflexivity].
  eexists. split; [vm_compute; reflexivity|]. apply (accepted_by (dor_limits 1 0)). vm_compute. reflexivity.
Qed.
Print Assumptions C106_no_s2_refuted.
Print Assumptions C106_no_sipms_refuted.
