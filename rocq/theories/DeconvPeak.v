(** C44: the deconvolved hits carry the energy of the peak *)
From Verif Require Import Base Arrays PeaksModel PeaksProofs BuffersProofs BuffersEvent WfmProps XyProps PmapioProofs DbModel DbProps CorrModel CorrSpec CorrProps CorrMore PsfModel PsfSpec PsfProps PsfSplit PsfPeak DeconvModel DeconvSpec DeconvProps.
From Coq Require Import Qabs.
Local Open Scope Q_scope.

(** ---- specification ---- *)
(** a pixel of an image is above the cut: its value, or its value as fraction of the greatest one *)
Definition above (ct : cut_type) (e_cut : Q) (image : list (Q * Q * Q)) (p : Q * Q * Q) : Prop :=
  match ct with
  | CutAbs => e_cut < snd p
  | CutRel => exists m, is_greatest (map snd image) m /\ ~ m == 0 /\ e_cut < snd p / m
  end.
(** the hits of a peak by their z: each z once, with all the hits at that z *)
Definition slices_of (hits : list dhit) (slices : list (Q * list dhit)) : Prop :=
  ForallOrdPairs (fun a b => ~ fst a == fst b) slices
  /\ (forall s, In s slices -> snd s <> [] /\ picks (fun h => [dZ h]) [fst s] hits (snd s))
  /\ forall h, In h hits -> exists s, In s slices /\ dZ h == fst s.
(** the rows have the positions of the pixels, and energies rounded from those proportional to the values of the pixels *)
Definition proportional (rnd : Q -> Q) (pixels : list (Q * (Q * Q * Q))) (energy : Q) (rows : list deco) : Prop :=
  exists exact, sumQ exact == energy /\ map oE rows = map rnd exact
    /\ Forall2 (fun p o => oX o = fst (fst (snd p)) /\ oY o = snd (fst (snd p)) /\ oZ o = fst p) pixels rows
    /\ Forall2 (fun p v => v * sumF (fun p => snd (snd p)) pixels == snd (snd p) * energy) pixels exact.
(** ---- proofs ---- *)
Lemma create_spec z image ct e_cut out : create_deconvolution_df z image ct e_cut = Ok out -> exists px, survivors (above ct e_cut image) image px /\ out = map (fun p => let '(x, y, e) := p in {| oX := x; oY := y; oZ := z; oE := e |}) px.
Proof.
  unfold create_deconvolution_df. destruct ct; cbn [above].
  - intros E. injection E as <-. eexists. split; [|reflexivity]. apply survivors_filter. intros p _. apply Qltb_lt.
  - destruct (maxQ (map snd image)) as [m|] eqn:M; [|discriminate]. assert (G := max_greatest (map snd image)). rewrite M in G. destruct (Qeqb_spec m 0) as [Z|NZ].
    + intros E. injection E as <-. exists []. split; [|reflexivity]. assert (FN : filter (fun _ => false) image = []) by (apply filter_none_in; auto). rewrite <- FN. apply survivors_filter. intros p _. split; [discriminate|]. intros (m' & G' & N & _). exfalso. apply N. destruct G as [G1 G2], G' as [G1' G2']. assert (m <= m') by now apply G2'. assert (m' <= m) by now apply G2. lra.
    + intros E. injection E as <-. eexists. split; [|reflexivity]. apply survivors_filter. intros p _. rewrite Qltb_lt. split.
      * intros H. exists m. auto.
      * intros (m' & G' & N & H). assert (m == m'). { destruct G as [G1 G2], G' as [G1' G2']. assert (m <= m') by now apply G2'. assert (m' <= m) by now apply G2. lra. } rewrite H0. assumption.
Qed.

Section Peak.
  Variable deconvolution : list (Q * Q * Q) -> Q -> list (Q * Q * Q).
  Variable round6 : Q -> Q.
  Variables (ct : cut_type) (e_cut : Q) (energy : nat).
  Definition image_of (hits : list dhit) (s : Q * list dhit) : list (Q * Q * Q) := deconvolution (map (fun h => (dX h, dY h, dQ h / sumF dQ hits)) (snd s)) (fst s).
  Definition raw (p : Q * (Q * Q * Q)) : deco := let '(z, (x, y, e)) := p in {| oX := x; oY := y; oZ := z; oE := e |}.
  Lemma slices_ok hits : slices_of hits (map (fun z => (nth 0 z 0, filter (fun h => key_eqb z [dZ h]) hits)) (group_keys (map (fun h => [dZ h]) hits))).
  Proof.
    assert (One : forall z, In z (group_keys (map (fun h => [dZ h]) hits)) -> exists q, z = [q]) by (intros z Hz; apply group_keys_in in Hz; apply in_map_iff in Hz; destruct Hz as (h & <- & _); eauto).
    split; [|split].
    - assert (D := group_keys_distinct (map (fun h => [dZ h]) hits)). induction D as [|z l H D IH]; cbn [map]; constructor.
      + rewrite Forall_forall in *. intros s Hs. apply in_map_iff in Hs. destruct Hs as (z' & <- & Hz'). cbn [fst]. destruct (One z (or_introl eq_refl)) as [q ->], (One z' (or_intror Hz')) as [q' ->]. cbn. intros C. apply (H [q'] Hz'). constructor; [assumption|constructor].
      + apply IH. intros; apply One; now right.
    - intros s Hs. apply in_map_iff in Hs. destruct Hs as (z & <- & Hz). destruct (One z Hz) as [q ->]. cbn [fst snd nth]. split; [|now apply picks_filter]. apply group_keys_in in Hz. apply in_map_iff in Hz. destruct Hz as (h & E & Hh). intros N. assert (I : In h (filter (fun h => key_eqb [q] [dZ h]) hits)) by (apply filter_In; split; [assumption|]; rewrite E; apply key_eqb_iff, same_refl). rewrite N in I. destruct I.
    - intros h Hh. destruct (group_keys_covers (map (fun h => [dZ h]) hits) [dZ h]) as (z & Iz & S); [apply in_map_iff; eauto|]. destruct (One z Iz) as [q ->]. exists (q, filter (fun h => key_eqb [q] [dZ h]) hits). split; [apply in_map_iff; exists [q]; auto|]. cbn. now inversion S.
  Qed.
  Lemma deconvolve_peak_spec hits rows : deconvolve_peak deconvolution ct e_cut energy hits = Ok rows ->
    exists slices pixels, slices_of hits slices /\ Forall2 (fun s px => survivors (above ct e_cut (image_of hits s)) (image_of hits s) px) slices pixels
    /\ (rows = [] /\ concat pixels = []
        \/ ~ sumF (fun p => snd (snd p)) (concat (map2 (fun s px => map (pair (fst s)) px) slices pixels)) == 0 /\ proportional (fun v => v) (concat (map2 (fun s px => map (pair (fst s)) px) slices pixels)) (total energy hits) rows).
  Proof.
    unfold deconvolve_peak. destruct (Qeqb (sumF dQ hits) 0); [discriminate|]. destruct (rmap _ _) as [ls|] eqn:R; [|discriminate]. cbn [rbind]. apply rmap_forall2 in R. intros E.
    exists (map (fun z => (nth 0 z 0, filter (fun h => key_eqb z [dZ h]) hits)) (group_keys (map (fun h => [dZ h]) hits))).
    assert (X : exists pixels, Forall2 (fun s px => survivors (above ct e_cut (image_of hits s)) (image_of hits s) px) (map (fun z => (nth 0 z 0, filter (fun h => key_eqb z [dZ h]) hits)) (group_keys (map (fun h => [dZ h]) hits))) pixels
      /\ concat ls = map raw (concat (map2 (fun s px => map (pair (fst s)) px) (map (fun z => (nth 0 z 0, filter (fun h => key_eqb z [dZ h]) hits)) (group_keys (map (fun h => [dZ h]) hits))) pixels))).
    { clear E. induction R as [|z l zs ls' Ez R IH]; [exists []; cbn; auto|]. destruct IH as (pixels & F & C). apply create_spec in Ez. destruct Ez as (px & S & ->). exists (px :: pixels). cbn [map concat]. split; [constructor; [exact S|exact F]|]. rewrite C. unfold map2. cbn [combine map concat]. rewrite map_app. f_equal. rewrite map_map. apply map_ext. intros [[x y] e]. reflexivity. }
    destruct X as (pixels & F & C). exists pixels. split; [apply slices_ok|]. split; [exact F|]. rewrite C in E. clear C R ls.
    set (zs := map (fun z => (nth 0 z 0, filter (fun h => key_eqb z [dZ h]) hits)) _) in *. clearbody zs. set (ps := concat (map2 _ zs pixels)) in *.
    assert (NE : ps = [] -> concat pixels = []). { unfold ps. clear ps E. induction F as [|s px ss pxs S F IH]; [reflexivity|]. unfold map2. cbn [combine map concat]. intros H. apply app_eq_nil in H. destruct H as [H1 H2]. destruct px; [|discriminate]. cbn. apply IH, H2. }
    clearbody ps. unfold distribute_energy in E. destruct ps as [|p0 ps0] eqn:EP; [cbn in E; injection E as <-; left; auto|]. rewrite <- EP in *. right. assert (D : map raw ps <> []) by (rewrite EP; discriminate). clear EP p0 ps0.
    assert (S : sumF oE (map raw ps) == sumF (fun p => snd (snd p)) ps) by (clear; induction ps as [|[z [[x y] e]] l IH]; [reflexivity|]; cbn [map]; rewrite !sumF_cons, IH; reflexivity).
    destruct (map raw ps) as [|r0 rs0] eqn:ER; [congruence|]. rewrite <- ER in *. clear ER D r0 rs0. destruct (Qeqb_spec (sumF oE (map raw ps)) 0) as [Z|NZ]; [discriminate|]. rewrite S in NZ. split; [assumption|]. injection E as <-. set (t := sumF oE (map raw ps)) in *. clearbody t. change (column energy hits) with (total energy hits).
    set (T := total energy hits). set (t' := sumF (fun p => snd (snd p)) ps) in *. exists (map (fun p => snd (snd p) / t * T) ps). split; [|split; [|split]].
    - transitivity (t' / t * T); [|rewrite S; field; assumption]. unfold t'. clear. induction ps as [|p l IH]; [cbn; unfold Qdiv; ring|]. cbn [map]. rewrite sumF_cons. cbn [sumQ fold_right] in *. change (snd (snd p) / t * T + sumQ (map (fun p => snd (snd p) / t * T) l) == (snd (snd p) + sumF (fun p => snd (snd p)) l) / t * T). rewrite IH. unfold Qdiv. ring.
    - rewrite map_id, !map_map. apply map_ext. intros [z [[x y] e]]. reflexivity.
    - clear. induction ps as [|[z [[x y] e]] l IH]; cbn; constructor; [cbn; auto|assumption].
    - change (Forall2 (fun p v => v * t' == snd (snd p) * T) ps (map (fun p => snd (snd p) / t * T) ps)). clearbody t'. clear - S NZ. induction ps as [|p l IH]; cbn; constructor; [|assumption]. rewrite S. field. assumption.
  Qed.
  (** each peak of the event: its pixels above the cut, with energies proportional to their values and adding up to the energy of the peak *)
  Theorem C44_peaks df out : apply_deconvolution deconvolution round6 ct e_cut energy df = Ok out -> forall k hits rows, picks d_peak k df hits -> picks fst k out rows ->
    hits = [] /\ rows = []
    \/ exists slices pixels, slices_of hits slices /\ Forall2 (fun s px => survivors (above ct e_cut (image_of hits s)) (image_of hits s) px) slices pixels
        /\ (rows = [] /\ concat pixels = [] \/ proportional round6 (concat (map2 (fun s px => map (pair (fst s)) px) slices pixels)) (total energy hits) (map snd rows)).
  Proof.
    unfold apply_deconvolution. destruct (rmap _ _) as [ls|] eqn:R; [|discriminate]. cbn [rbind]. intros E k hits rows P1 P2. injection E as <-. apply picks_filter in P1. apply picks_filter in P2. apply rmap_forall2 in R.
    set (rnd := fun o => {| oX := oX o; oY := oY o; oZ := oZ o; oE := round6 (oE o) |}).
    assert (R' : Forall2 (fun key part => exists l, deconvolve_peak deconvolution ct e_cut energy (filter (fun h => key_eqb key (d_peak h)) df) = Ok l /\ part = map (pair key) l) (group_keys (map d_peak df)) ls).
    { eapply Forall2_mono; [|exact R]. intros key part _ Ep. cbn beta in Ep. destruct (deconvolve_peak _ _ _ _ _) as [l|] eqn:D; [|discriminate]. injection Ep as <-. eauto. }
    clear R. assert (Q : forall keys parts, Forall2 (fun key part => exists l, deconvolve_peak deconvolution ct e_cut energy (filter (fun h => key_eqb key (d_peak h)) df) = Ok l /\ part = map (pair key) l) keys parts -> distinct_list keys ->
      (filter (fun a => key_eqb k (fst a)) (concat parts) = [] /\ forall key, In key keys -> ~ same_key k key)
      \/ exists key l, In key keys /\ same_key k key /\ deconvolve_peak deconvolution ct e_cut energy (filter (fun h => key_eqb key (d_peak h)) df) = Ok l /\ filter (fun a => key_eqb k (fst a)) (concat parts) = map (pair key) l).
    { clear. intros keys parts F. induction F as [|key part keys parts (l & El & ->) F IH]; intros D; [left; split; [reflexivity|intros key []]|]. inversion D as [|x y D1 D2]; subst. specialize (IH D2). cbn [concat]. rewrite filter_app. destruct (key_eqb k key) eqn:Ek.
      - right. exists key, l. apply key_eqb_iff in Ek. repeat split; [now left|assumption|assumption|]. rewrite filter_all_in by (intros a Ha; apply in_map_iff in Ha; destruct Ha as (o & <- & _); now apply key_eqb_iff). destruct IH as [[-> _]|(key' & l' & I' & S' & _)]; [apply app_nil_r|]. exfalso. rewrite Forall_forall in D1. apply (D1 key' I'). eapply same_trans; [apply same_sym; exact Ek|exact S'].
      - apply key_eqb_false in Ek. rewrite filter_none_in by (intros a Ha; apply in_map_iff in Ha; destruct Ha as (o & <- & _); now apply key_eqb_false). cbn [app]. destruct IH as [[-> H]|(key' & l' & I' & H)]; [left; split; [reflexivity|]; intros x [<-|Hx]; auto|right]. exists key', l'. split; [now right|assumption]. }
    assert (FM : filter (fun a => key_eqb k (fst a)) (map (fun ko => (fst ko, rnd (snd ko))) (concat ls)) = map (fun ko => (fst ko, rnd (snd ko))) (filter (fun a => key_eqb k (fst a)) (concat ls))) by (clear; induction (concat ls) as [|a l IH]; cbn; [reflexivity|]; destruct (key_eqb k (fst a)); cbn; now rewrite IH).
    change (rows = filter (fun a => key_eqb k (fst a)) (map (fun ko => (fst ko, rnd (snd ko))) (concat ls))) in P2. rewrite FM in P2. destruct (Q _ _ R' (group_keys_distinct _)) as [[Q1 Q2]|(key & l & I & S & El & Q1)]; rewrite Q1 in P2.
    - left. split; [|assumption]. subst hits. apply filter_none_in. intros h Hh. apply key_eqb_false. intros C. destruct (group_keys_covers (map d_peak df) (d_peak h)) as (key & Ik & Sk); [now apply in_map|]. apply (Q2 key Ik). eapply same_trans; eassumption.
    - right. assert (Eh : filter (fun h => key_eqb key (d_peak h)) df = hits) by (subst hits; apply filter_ext; intros a; symmetry; now apply key_eqb_ext). rewrite Eh in El. apply deconvolve_peak_spec in El. destruct El as (slices & pixels & S1 & S2 & S3). exists slices, pixels. split; [assumption|]. split; [assumption|]. destruct S3 as [[-> C]|[_ (exact & X1 & X2 & X3 & X4)]]; [left; now subst|right].
      exists exact. split; [assumption|]. subst rows. rewrite !map_map. cbn [snd]. split; [|split; [|assumption]].
      + rewrite map_id in X2. rewrite <- X2, map_map. reflexivity.
      + clear - X3. induction X3 as [|p o l m H F IH]; cbn; constructor; [exact H|assumption].
  Qed.
  (** the energies of the deconvolved hits of a peak with some pixel above the cut add up to the energy of the peak, up to the rounding *)
  Theorem C44_energy err df out : (forall x, Qabs (round6 x - x) <= err) -> apply_deconvolution deconvolution round6 ct e_cut energy df = Ok out ->
    forall k hits rows, picks d_peak k df hits -> picks fst k out rows -> rows <> [] -> Qabs (sumF (fun r => oE (snd r)) rows - total energy hits) <= qn (length rows) * err.
  Proof.
    intros Hr E k hits rows P1 P2 NE. destruct (C44_peaks df out E k hits rows P1 P2) as [[_ C]|(slices & pixels & _ & _ & [[C _]|(exact & X1 & X2 & _ & _)])]; try contradiction.
    assert (L : length exact = length rows) by (rewrite <- (map_length round6 exact), <- X2, !map_length; reflexivity).
    assert (S : sumF (fun r => oE (snd r)) rows == sumQ (map round6 exact)) by (rewrite <- X2, map_map; reflexivity). rewrite S, <- X1, <- L. clear - Hr. induction exact as [|v l IH]; [assert (E0 : Qabs (sumQ [] - sumQ []) == 0) by reflexivity; assert (E1 : qn 0 * err == 0) by (change (qn 0) with 0; ring); cbn [map length]; rewrite E0, E1; apply Qle_refl|]. cbn [map]. change (Qabs (round6 v + sumQ (map round6 l) - (v + sumQ l)) <= qn (S (length l)) * err). rewrite qn_S.
    assert (T := Qabs_triangle (round6 v - v) (sumQ (map round6 l) - sumQ l)). assert (E : round6 v + sumQ (map round6 l) - (v + sumQ l) == round6 v - v + (sumQ (map round6 l) - sumQ l)) by ring. rewrite E. specialize (Hr v). lra.
  Qed.
End Peak.
Print Assumptions C44_peaks.
Print Assumptions C44_energy.

(** a deconvolution that gives back the hits, and a peak of two slices with 30 units of energy *)
Definition ex_deco (hits : list (Q * Q * Q)) (z : Q) : list (Q * Q * Q) := hits.
Definition ex_dhit (x z q e : Q) : dhit := {| d_index := 0; d_peak := [1]; dX := x; dY := 0; dZ := z; dQ := q; dvars := [e] |}.
Definition ex_event : list dhit := [ex_dhit 0 1 3 10; ex_dhit 5 1 1 10; ex_dhit 7 2 4 10].
Definition ex_rows (cut : Q) : result (list (Q * Q * Q)) := rbind (apply_deconvolution ex_deco Qred CutAbs cut 0 ex_event) (fun l => Ok (map (fun r => (oX (snd r), oZ (snd r), Qred (oE (snd r)))) l)).
Example ex_deconvolved : ex_rows (1 # 4) = Ok [(0, 1, 90 # 7); (7, 2, 120 # 7)].
Proof. reflexivity. Qed.
Example ex_relative : rbind (apply_deconvolution ex_deco Qred CutRel (1 # 2) 0 ex_event) (fun l => Ok (map (fun r => (oX (snd r), oZ (snd r), Qred (oE (snd r)))) l)) = Ok [(0, 1, 90 # 7); (7, 2, 120 # 7)].
Proof. reflexivity. Qed.
(** a peak without pixels above the cut has no deconvolved hits, and its energy is lost *)
Theorem C44_all_cut_refuted : exists df out, apply_deconvolution ex_deco Qred CutAbs 1 0 df = Ok out /\ picks d_peak [1] df df /\ 0 < total 0 df /\ out = [].
Proof.
  exists ex_event, []. split; [reflexivity|]. split; [|split; [|reflexivity]].
  - repeat (apply picks_in; [constructor; [reflexivity|constructor]|]). constructor.
  - reflexivity.
Qed.
Print Assumptions C44_all_cut_refuted.
