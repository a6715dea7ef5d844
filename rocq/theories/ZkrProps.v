(** C128: from PMaps to the krypton map *)
From Verif Require Import Base PeaksModel BuffersModel ReadModel PmapioModel FiltersModel FiltersSpec XyModel SophModel KrModel KrSpec PreadModel PreadSpec DorModel DorSpec DorProps.
From Verif Require Import WfmModel DbModel CorrModel CorrSpec CorrMore KmapModel KmapSpec KmapProps ZemModel ZemProps TevModel TevSpec ZrunModel ZrunSpec ZrunProofs ZrunProps ZrunMeta ZkrModel ZkrSpec.
Local Open Scope Q_scope.

Lemma kdst_fields w d : kdst_row w = Ok d -> w_S1e w = Some (dr_s1e d) /\ d = {| dr_kr := {| kX := w_X w; kY := w_Y w; kDT := w_DT w; kS2e := w_S2e w; ktime := w_time w |}; dr_event := KrModel.w_event w; dr_s1e := dr_s1e d; dr_s2t := w_S2t w; dr_r := w_R w; dr_z := w_Z w;
      dr_col := fun c => match c with S1w => w_S1w w | S1h => w_S1h w | S2h => w_S2h w | S2w => w_S2w w | S2q => w_S2q w | Nsipm => w_Nsipm w | Xrms => w_Xrms w | Yrms => w_Yrms w | Zrms => w_Zrms w end |}.
Proof. unfold kdst_row. destruct (w_S1e w); intros H; [injection H as <-; split; reflexivity|discriminate H]. Qed.
Lemma rmap_f2 {A B} (f : A -> result B) l : forall m, rmap f l = Ok m -> Forall2 (fun a b => f a = Ok b) l m.
Proof.
  induction l as [|a l IH]; intros m H; cbn [rmap] in H; [injection H as <-; constructor|]. destruct (f a) eqn:E; [|discriminate H]. cbn [rbind] in H. destruct (rmap f l); [|discriminate H]. cbn [rbind] in H. injection H as <-. constructor; [exact E|now apply IH].
Qed.
Lemma in_picked {A} flags (l sel : list A) : picked flags l sel -> forall a, In a sel <-> exists i, nth_error l i = Some a /\ nth i flags false = true.
Proof.
  induction 1 as [|f l s b P IH|f l s b P IH]; intros a.
  - split; [easy|]. intros ([|i] & H & _); discriminate H.
  - split.
    + intros [<-|Ha]; [exists O; split; reflexivity|]. apply IH in Ha. destruct Ha as (i & H1 & H2). now exists (Datatypes.S i).
    + intros ([|i] & H1 & H2); [injection H1 as <-; now left|]. right. apply IH. now exists i.
  - split.
    + intros Ha. apply IH in Ha. destruct Ha as (i & H1 & H2). now exists (Datatypes.S i).
    + intros ([|i] & H1 & H2); [discriminate H2|]. apply IH. now exists i.
Qed.
Lemma picked_count {A} (P : A -> Prop) flags (l sel : list A) : picked flags l sel -> (forall i a, nth_error l i = Some a -> (nth i flags false = true <-> P a)) -> how_many P l (length sel).
Proof.
  induction 1 as [|f l s b H IH|f l s b H IH]; intros N; [constructor| |].
  - cbn [length]. constructor; [now apply (N O b)|]. apply IH. intros i a E. exact (N (Datatypes.S i) a E).
  - constructor; [|apply IH; intros i a E; exact (N (Datatypes.S i) a E)]. intros K. apply (N O b eq_refl) in K. discriminate K.
Qed.
Lemma only_app {A} (P : A -> Prop) l1 o1 l2 o2 : only P l1 o1 -> only P l2 o2 -> only P (l1 ++ l2) (o1 ++ o2).
Proof. induction 1; intros H2; cbn [app]; [exact H2| |]; constructor; auto. Qed.
Lemma only_fun {A} (P : A -> Prop) l o1 o2 : only P l o1 -> only P l o2 -> o1 = o2.
Proof. intros H. revert o2. induction H as [|a l o Pa H IH|a l o Pa H IH]; intros o2 H2; inversion H2; subst; try tauto; [f_equal|]; auto. Qed.

Section Chain.
  Variables (xys : list (Q * Q)) (v : Q) (noise : list nat -> list Q -> Z -> list Q) (sw : Q -> Z) (ct : charge_type) (dsqrt : Q -> Q) (atan : Q -> Q -> Q) (qthr : Q).
  Variable sqrt : Q -> Q.
  Variables root2pi fwhm : Q.
  Variables std std0 : list Q -> val.
  Variable over_sqrt : val -> nat -> val.
  Variable fit_bin : list Q -> nat -> option (val * val * val * val).
  Variable fit_expo : list Q -> list Q -> val -> result (Q * Q * (val * val)).
  Variable fit_gauss : list Q -> list nat -> Q * Q * Q -> option (list Q) -> result ((Q * Q * Q) * (val * val * val) * val).
  Variable fit_sigmoid : list Q -> list nat -> nat * Q * Q * nat -> list Q -> result (Q * val).
  Variable nearest : list (Q * Q * Q) -> Q * Q * Q -> nat.
  Hypothesis griddata : takes_nearest nearest.
  Notation zemrude := (zemrude sqrt root2pi fwhm std std0 over_sqrt fit_bin fit_expo fit_gauss fit_sigmoid nearest).
  Notation dorothea := (dorothea xys v noise sw ct dsqrt atan qthr).
  Notation charges := (charge_single noise sw ct).
  Notation rms := (rms dsqrt).
  Notation krypton_of := (krypton_of xys v charges rms dsqrt atan qthr).
  (** the events of the inputs of one run of dorothea, that can all be read and have their SiPMs in the database *)
  Definition readable (fs : list pfile) (items : list pitem) : Prop := pmap_from_files fs = (items, None) /\ forall it p, In it items -> In p (s2s (pi_pmap it)) -> fits xys noise sw ct p.

  Lemma selected_row c it rows w d cz : event_rows xys charges dsqrt atan qthr c v rms it rows -> In w rows -> kdst_row w = Ok d -> late cz d ->
    exists p1 p2 k, In p1 (s1s (pi_pmap it)) /\ good_s1 c p1 /\ In p2 (s2s (pi_pmap it)) /\ good_s2 c p2 /\ row_of_peaks xys v charges rms dsqrt atan qthr it p1 p2 k d.
  Proof.
    intros (l1 & l2 & place & O1 & O2 & Pl & F) Hw Hd ((r & Er & Hr & _) & _ & _). destruct (f2_in_r _ _ _ _ F Hw) as ([o j] & _ & (E1 & E2 & _ & _ & (p2 & N2 & S2) & Ro)).
    apply kdst_fields in Hd. destruct Hd as (Es & Ed). destruct o as [i|]; [|destruct Ro as ((_ & _ & _ & X & _) & _); congruence]. destruct Ro as (p1 & p2' & N1 & N2' & S1 & D). rewrite N2 in N2'. injection N2' as <-.
    destruct S2 as (_ & A2 & A3 & A4 & A5 & _ & B). destruct S1 as (_ & C2 & C3 & C4 & _). pose proof (Pl p2 (nth_error_In _ _ N2)) as P2. unfold drift_part in D. cbv zeta in B.
    destruct (place p2) as [k|].
    - destruct (only_in _ _ _ _ O1 (nth_error_In _ _ N1)) as [I1 G1]. destruct (only_in _ _ _ _ O2 (nth_error_In _ _ N2)) as [I2 G2]. exists p1, p2, k. do 4 (split; [assumption|]).
      destruct B as (B1 & B2 & B3 & B4 & B5 & _ & B7 & B8 & B9). destruct D as [D1 D2]. assert (Ee : dr_s1e d = total_energy p1) by congruence. rewrite Ed. unfold row_of_peaks. cbn [dr_kr dr_event dr_s1e dr_s2t dr_r dr_z dr_col kX kY kDT kS2e ktime].
      rewrite E1, E2, Ee, C2, C3, A2, A3, A4, A5, B1, B2, B3, B4, B5, B7, B8, B9, D1, D2. auto 30.
    - exfalso. rewrite Ed in Er. cbn [dr_r] in Er. destruct B as (_ & _ & _ & _ & B5 & _). rewrite B5 in Er. cbn [k_R NNN] in Er. unfold NN in Er. injection Er as <-. apply Qle_bool_iff in Hr. discriminate Hr.
  Qed.

  Lemma file_rows c items o f : krypton_file xys v noise sw ct dsqrt atan qthr c items o -> kdst_file o = Ok f ->
    exists kept rowss ds, only (fun it => accepted c (pi_pmap it)) items kept /\ Forall2 (event_rows xys charges dsqrt atan qthr c v rms) kept rowss /\ Forall2 (fun w d => kdst_row w = Ok d) (concat rowss) ds /\
      zf_rows f = Some ds /\ zf_run f = match kept with it :: _ => Some (pi_run it) | [] => None end.
  Proof.
    intros (kept & rowss & O & F & R & _ & I & _) H. unfold kdst_file in H. rewrite R, I in H. destruct (rmap kdst_row (concat rowss)) as [ds|] eqn:E; [|discriminate H]. cbn [rbind] in H. injection H as <-. exists kept, rowss, ds.
    split; [exact O|]. split; [exact F|]. split; [now apply rmap_f2|]. split; [reflexivity|]. destruct kept; reflexivity.
  Qed.
  Lemma made_files c inputs itemss outs files : limits_ok c -> 1 <= fst (s2_n c) -> 1 <= fst (s2_nsipm c) -> Forall2 readable inputs itemss -> Forall2 (fun fs o => dorothea c fs = Ok o) inputs outs -> rmap kdst_file outs = Ok files ->
    Forall2 (fun items f => exists o, krypton_file xys v noise sw ct dsqrt atan qthr c items o /\ kdst_file o = Ok f) itemss files.
  Proof.
    intros L N1 N2 R. revert outs files. induction R as [|fs items inputs itemss (R1 & R2) R IH]; intros outs files D M; inversion D; subst; cbn [rmap] in M; [injection M as <-; constructor|].
    match goal with A : dorothea c fs = Ok ?o |- _ => destruct (C106_run xys v noise sw ct dsqrt atan qthr c fs items L N1 N2 R1 R2) as (o' & E & K); rewrite A in E; injection E as <-; destruct (kdst_file o) as [f|] eqn:Ef; [|discriminate M] end.
    cbn [rbind] in M. match type of M with context [rmap kdst_file ?l] => destruct (rmap kdst_file l) as [fl|] eqn:El; [|discriminate M] end. cbn [rbind] in M. injection M as <-. constructor; [eexists; split; eassumption|]. eapply IH; eassumption.
  Qed.
  Lemma row_from c cz itemss files : Forall2 (fun items f => exists o, krypton_file xys v noise sw ct dsqrt atan qthr c items o /\ kdst_file o = Ok f) itemss files ->
    forall d, In d (all_rows files) -> late cz d -> krypton_of c itemss d.
  Proof.
    intros F d Hd Hl. unfold all_rows in Hd. apply in_flat_map in Hd. destruct Hd as (f & Hf & Hd). destruct (f2_in_r _ _ _ _ F Hf) as (items & Hi & o & K & E).
    destruct (file_rows _ _ _ _ K E) as (kept & rowss & ds & O & R & D & Z & _). rewrite Z in Hd. destruct (f2_in_r _ _ _ _ D Hd) as (w & Hw & Ew). apply in_concat in Hw. destruct Hw as (rows & Hr & Hw).
    destruct (f2_in_r _ _ _ _ R Hr) as (it & Ik & Ev). destruct (only_in _ _ _ _ O Ik) as [Ii Ac]. destruct (selected_row _ _ _ _ _ _ Ev Hw Ew Hl) as (p1 & p2 & k & H). exists items, it, p1, p2, k. tauto.
  Qed.

  (** Runs of dorothea over PMaps and a run of zemrude over their files. The events in the time evolution, and those in the bins of the map that are in its ranges, are each the row of a good S1 and a good
      S2 with a position, of an event that dorothea accepted, and no two have the same number. The run number is that of the first accepted event of the first file. *)
  Theorem C128_map c cz pre inputs itemss outs files out : limits_ok c -> 1 <= fst (s2_n c) -> 1 <= fst (s2_nsipm c) -> Forall2 readable inputs itemss ->
    Forall2 (fun fs o => dorothea c fs = Ok o) inputs outs -> rmap kdst_file outs = Ok files -> 0 < z_hours cz -> zemrude cz pre files = Ok out ->
    exists sel, (forall d, In d sel -> krypton_of c itemss d) /\ NoDup (map dr_event sel) /\ total_events (zo_evol out) = length sel /\
      (exists n, how_many (fun d => in_map_range cz (dr_kr d)) sel n /\ events_in_map (zo_map out) == qn n) /\
      exists items rest it kept, itemss = items :: rest /\ only (fun it => accepted c (pi_pmap it)) items (it :: kept) /\ Forall (fun r => v_run r = pi_run it) (zo_evol out).
  Proof using griddata.
    intros L N1 N2 R D M Hh Hz. pose proof (made_files _ _ _ _ _ L N1 N2 R D M) as F. destruct (C116_zemrude _ _ _ _ _ _ _ _ _ _ _ griddata _ _ _ _ Hh Hz) as (run & ecs & flags & sel & ec2s & (f & fs & Ef & Er) & _ & _ & P & Fl & Nd & _ & T & (n & Hn & En) & _ & Ev).
    exists (map fst sel). split; [|split; [|split; [|split]]].
    - intros d Hd. apply in_map_iff in Hd. destruct Hd as ([d' ec] & <- & Hd). pose proof (proj1 (in_picked _ _ _ P _) Hd) as (i & H1 & H2). apply Fl in H2. destruct H2 as (d & ec' & H2 & _ & Hl & _). rewrite H1 in H2. injection H2 as -> ->.
      apply (row_from c cz _ _ F); [|exact Hl]. apply nth_error_In, in_combine_l in H1. exact H1.
    - now rewrite map_map.
    - now rewrite map_length.
    - exists n. split; [|exact En]. clear -Hn. induction Hn; cbn [map]; constructor; auto.
    - destruct Ev as (evs & t0 & ks & parts & _ & _ & _ & _ & _ & Fv). subst files. inversion F as [|items f' rest fs' (o & K & Eo) F' E1 E2]; subst. destruct (file_rows _ _ _ _ K Eo) as (kept & rowss & ds & O & _ & _ & _ & Zr).
      destruct kept as [|it kept]; [congruence|]. exists items, rest, it, kept. split; [reflexivity|]. split; [exact O|]. assert (Eq : run = pi_run it) by congruence. subst run.
      apply Forall_forall. intros r Hr. destruct (f2_in_r _ _ _ _ Fv Hr) as (s & _ & (Hv & _)). exact Hv.
  Qed.

  Lemma one_row c it rows : s1_n c = (1, 1) -> s2_n c = (1, 1) -> accepted c (pi_pmap it) -> event_rows xys charges dsqrt atan qthr c v rms it rows -> exists w, rows = [w] /\ KrModel.w_event w = pi_event it.
  Proof.
    intros E1 E2 (n1 & n2 & H1 & H2 & B1 & B2) (l1 & l2 & place & O1 & O2 & _ & F). rewrite (only_how_many _ _ _ _ O1 H1), (only_how_many _ _ _ _ O2 H2) in F. rewrite E1 in B1. rewrite E2 in B2.
    assert (One : forall n, between (1, 1) (qn n) -> n = 1%nat). { intros n [A B]. cbn [fst snd] in A, B. change 1 with (inject_Z 1) in A, B. unfold qn in A, B. rewrite <- Zle_Qle in A, B. lia. }
    apply One in B1, B2. subst n1 n2. cbn in F. inversion F as [|x w y rest H F' X Y]; subst. inversion F'; subst. exists w. split; [reflexivity|]. exact (proj1 H).
  Qed.
  Lemma kept_rows c kept rowss ds : s1_n c = (1, 1) -> s2_n c = (1, 1) -> Forall (fun it => accepted c (pi_pmap it)) kept -> Forall2 (event_rows xys charges dsqrt atan qthr c v rms) kept rowss ->
    Forall2 (fun w d => kdst_row w = Ok d) (concat rowss) ds -> map dr_event ds = map pi_event kept.
  Proof.
    intros E1 E2 A F. revert ds A. induction F as [|it rows kept rowss H F IH]; intros ds A D; [inversion D; reflexivity|]. inversion A as [|a b A1 A2]; subst. destruct (one_row _ _ _ E1 E2 A1 H) as (w & -> & Ew). cbn [concat app] in D.
    inversion D as [|x d y ds' Hd D' X Y]; subst. cbn [map]. f_equal; [|now apply IH]. apply kdst_fields in Hd. destruct Hd as [_ ->]. exact Ew.
  Qed.
  Lemma all_kept c itemss files : s1_n c = (1, 1) -> s2_n c = (1, 1) -> Forall2 (fun items f => exists o, krypton_file xys v noise sw ct dsqrt atan qthr c items o /\ kdst_file o = Ok f) itemss files ->
    exists kept, only (fun it => accepted c (pi_pmap it)) (concat itemss) kept /\ map dr_event (all_rows files) = map pi_event kept.
  Proof.
    intros E1 E2 F. induction F as [|items f itemss files (o & K & E) F (kept & O & M)]; [exists []; split; [constructor|reflexivity]|]. destruct (file_rows _ _ _ _ K E) as (k1 & rowss & ds & O1 & R & D & Z & _).
    exists (k1 ++ kept). split; [cbn [concat]; now apply only_app|]. unfold all_rows in *. cbn [flat_map]. rewrite Z, !map_app, M. f_equal. apply (kept_rows c _ rowss); try assumption. apply Forall_forall. intros it Hi. exact (proj2 (only_in _ _ _ _ O1 Hi)).
  Qed.

  (** With limits that ask for one S1 and one S2, there is one row for each accepted event. If their numbers are different, those that pass the cuts of zemrude are all selected: nothing is lost for not being alone. *)
  Theorem C128_one_each c cz pre inputs itemss outs files out : limits_ok c -> s1_n c = (1, 1) -> s2_n c = (1, 1) -> 1 <= fst (s2_nsipm c) -> Forall2 readable inputs itemss ->
    Forall2 (fun fs o => dorothea c fs = Ok o) inputs outs -> rmap kdst_file outs = Ok files -> 0 < z_hours cz -> zemrude cz pre files = Ok out ->
    exists kept ecs, only (fun it => accepted c (pi_pmap it)) (concat itemss) kept /\ map dr_event (all_rows files) = map pi_event kept /\ Forall2 (fun d ec => corrected_with pre (dr_kr d) ec) (all_rows files) ecs /\
      (NoDup (map pi_event kept) -> how_many (fun x => early cz (fst x) (snd x) /\ late cz (fst x)) (combine (all_rows files) ecs) (total_events (zo_evol out))).
  Proof using griddata.
    intros L S1 S2 N2 R D M Hh Hz. assert (N1 : 1 <= fst (s2_n c)) by (rewrite S2; apply Qle_refl). pose proof (made_files _ _ _ _ _ L N1 N2 R D M) as F. destruct (all_kept _ _ _ S1 S2 F) as (kept & O & E).
    destruct (C116_zemrude _ _ _ _ _ _ _ _ _ _ _ griddata _ _ _ _ Hh Hz) as (run & ecs & flags & sel & ec2s & _ & _ & C & P & Fl & _ & _ & T & _). exists kept, ecs. split; [exact O|]. split; [exact E|]. split; [exact C|].
    intros Nd. rewrite T. apply (picked_count _ _ _ _ P). intros i [d ec] Hi. rewrite Fl. cbn [fst snd]. split.
    - intros (d' & ec' & H1 & H2 & H3 & _). rewrite Hi in H1. injection H1 as -> ->. now split.
    - intros [H2 H3]. exists d, ec. split; [exact Hi|]. split; [exact H2|]. split; [exact H3|]. intros j d' ec' Hj Ej _. rewrite <- E in Nd. 
      assert (X : forall k (x : drow * val), nth_error (combine (all_rows files) ecs) k = Some x -> nth_error (map dr_event (all_rows files)) k = Some (dr_event (fst x))).
      { clear. revert ecs. induction (all_rows files) as [|a l IH]; intros [|e ecs] [|k] x H; try discriminate H; [injection H as <-; reflexivity|]. exact (IH _ _ _ H). }
      apply (proj1 (NoDup_nth_error (map dr_event (all_rows files))) Nd).
      + apply nth_error_Some. now rewrite (X _ _ Hj).
      + rewrite (X _ _ Hj), (X _ _ Hi). cbn [fst]. now rewrite Ej.
  Qed.

  (** Two rows with the same event number, such as two events of different runs, that pass the early cuts: neither is selected. *)
  Theorem C128_same_number cz pre files out : 0 < z_hours cz -> zemrude cz pre files = Ok out ->
    exists ecs sel, Forall2 (fun d ec => corrected_with pre (dr_kr d) ec) (all_rows files) ecs /\ total_events (zo_evol out) = length sel /\ (forall d, In d sel -> In d (all_rows files)) /\
      (forall i j d ec d' ec', i <> j -> nth_error (combine (all_rows files) ecs) i = Some (d, ec) -> nth_error (combine (all_rows files) ecs) j = Some (d', ec') -> dr_event d = dr_event d' -> early cz d ec -> early cz d' ec' ->
         ~ In (dr_event d) (map dr_event sel)).
  Proof using griddata.
    intros Hh Hz. destruct (C116_zemrude _ _ _ _ _ _ _ _ _ _ _ griddata _ _ _ _ Hh Hz) as (run & ecs & flags & sel & ec2s & _ & _ & C & P & Fl & _ & _ & T & _). exists ecs, (map fst sel). split; [exact C|]. split; [now rewrite map_length|]. split.
    - intros d Hd. apply in_map_iff in Hd. destruct Hd as ([d' ec] & <- & Hd). pose proof (proj1 (in_picked _ _ _ P _) Hd) as (i & H1 & _). apply nth_error_In, in_combine_l in H1. exact H1.
    - intros i j d ec d' ec' Nij Hi Hj Ee E1 E2 K. rewrite map_map in K. apply in_map_iff in K. destruct K as (x & Ex & Hx). apply (in_picked _ _ _ P) in Hx. destruct Hx as (k & Hk & Fk). apply Fl in Fk. destruct Fk as (dk & eck & H1 & _ & _ & U).
      rewrite Hk in H1. injection H1 as ->. cbn [fst] in Ex. apply Nij. rewrite (U i d ec Hi (eq_sym Ex) E1). rewrite (U j d' ec' Hj (eq_trans (eq_sym Ee) (eq_sym Ex)) E2). reflexivity.
  Qed.
End Chain.
Print Assumptions C128_map.
Print Assumptions C128_one_each.
Print Assumptions C128_same_number.

(** two runs of dorothea: the first reads an event with one S1 and one S2, one with two S2s, that is not accepted, and one without position; the second an event with the number [n] and those with 20 and 21 *)
Definition zk_event (n : Z) (t : Q) : written_event := {| we_number := n; we_time := t; we_pmap := {| s1s := [dor_s1]; s2s := [s2_at 11 [0%nat; 1%nat] [[30]; [10]]] |} |}.
Definition zk_inputs (n : Z) := [[file_of dor_events]; [file_of [zk_event n 5000000; zk_event 20 6000000; zk_event 21 12000000]]].
Definition zk_dorothea := dorothea [(0, 0); (40, 80)] 1 (fun _ q _ => q) (fun _ => 1%Z) Raw (fun x => x) (fun _ _ => 0) 5 (dor_limits 1 1).
Definition zk_files (n : Z) : result (list zfile) := rbind (rmap zk_dorothea (zk_inputs n)) (rmap kdst_file).
Definition zk_conf : zconf := {| z_method := Maximum; z_xy := None; z_low := fun _ => 0; z_upp := fun _ => 2; z_lx := 30; z_hx := 60; z_ls := 0; z_hs := 100; z_rmax := 1000; z_ld := 0; z_hd := 10; z_ln := 0; z_hn := 9;
  z_xy0 := 0; z_xy1 := 40; z_dt0 := 0; z_dt1 := 2; z_n := 2; z_nz := 1; z_s0 := 1; z_s1 := 200; z_fit := GaussianFit; z_min_events := 1; z_nbins := 5;
  z_hours := 1; z_x0 := 0; z_y0 := 0; z_shape := Circle; z_size := 50; z_dtbins := [0; 1; 2]; z_s1lo := 0; z_s1hi := 2; z_bins := [0; 100]; z_error := false |}.
Definition zk_pre := [bin_ex 0 (Some 50); bin_ex 4 (Some 50)].
Definition zk_run (n : Z) : result zout := rbind (zk_files n) (zemrude (fun q => q) 1 2 (fun _ => None) (fun _ => None) (fun v _ => v) (fun l _ => Some (Some (median l), Some 1, None, None)) (fun _ _ _ => Err (Other 70)) (fun _ _ _ _ => Err (Other 70)) (fun _ _ _ _ => Ok (1000, None)) first_nearest zk_conf zk_pre).
(** C128_map, C128_one_each and C128_same_number: the hypotheses hold, and the run finishes with the events 7, 10, 20 and 21 *)
Example C128_ex : takes_nearest first_nearest /\ limits_ok (dor_limits 1 1) /\ s1_n (dor_limits 1 1) = (1, 1) /\ s2_n (dor_limits 1 1) = (1, 1) /\ 1 <= fst (s2_nsipm (dor_limits 1 1)) /\ 0 < z_hours zk_conf /\
  Forall2 (readable [(0, 0); (40, 80)] (fun _ q _ => q) (fun _ => 1%Z) Raw) (zk_inputs 10) (map (fun fs => fst (pmap_from_files fs)) (zk_inputs 10)) /\
  (exists outs, Forall2 (fun fs o => zk_dorothea fs = Ok o) (zk_inputs 10) outs) /\
  exists out, zk_run 10 = Ok out /\ map (fun r => (v_run r, v_nevents r)) (zo_evol out) = [(5%Z, 1%nat); (5%Z, 2%nat); (5%Z, 1%nat)] /\ events_in_map (zo_map out) == 4.
Proof.
  split; [exact first_nearest_ok|]. split; [unfold limits_ok, ordered; cbn; repeat split; unfold Qle; cbn; lia|]. split; [reflexivity|]. split; [reflexivity|]. split; [apply Qle_refl|]. split; [reflexivity|]. split.
  - constructor; [|constructor; [|constructor]]; (split; [vm_compute; reflexivity|]); intros it p Hi Hp; vm_compute in Hi; repeat (destruct Hi as [<-|Hi]; [cbn in Hp; repeat (destruct Hp as [<-|Hp]; [split; [repeat constructor|reflexivity]|]); destruct Hp|]); destruct Hi.
  - split; [eexists; constructor; [vm_compute; reflexivity|]; constructor; [vm_compute; reflexivity|constructor]|]. eexists. split; [vm_compute; reflexivity|]. split; reflexivity.
Qed.
(** An event with one S1 and one S2 that passes every cut is used, or not, depending on the numbers of the events of the other runs. *)
Theorem C128_other_runs_refuted : exists out out', zk_run 10 = Ok out /\ zk_run 7 = Ok out' /\ total_events (zo_evol out) = 4%nat /\ total_events (zo_evol out') = 2%nat.
Proof. do 2 eexists. split; [vm_compute; reflexivity|]. split; [vm_compute; reflexivity|]. split; reflexivity. Qed.
Print Assumptions C128_other_runs_refuted.
