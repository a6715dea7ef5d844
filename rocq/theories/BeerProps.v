(** C100: an event of Beersheba *)
From Verif Require Import Base Arrays PeaksModel PeaksProofs BuffersProofs BuffersEvent WfmProps PmapioProofs DbModel DbProps CorrModel CorrSpec CorrProps CorrMore PsfModel PsfSpec PsfProps PsfSplit PsfPeak DeconvModel DeconvSpec DeconvProps DeconvPeak DeconvClusters.
From Verif Require Import HitsModel HitsSpec HitsProofs HitsProps EsmModel EsmSpec EsmProps BeerModel BeerSpec BeerProofs.
From Coq Require Import Qabs.
Local Open Scope Q_scope.

(** the column of the hits that the deconvolved hits share: E (0) or Ec (1) *)
Definition energy_column (i : nat) : hit -> HitsModel.num := match i with O => hE | _ => hEc end.
(** the rows of the output of one peak, and their energy *)
Definition peak_of (r : list Q * deco * Q) : key := fst (fst r).
Definition energy_of_row (r : list Q * deco * Q) : Q := oE (snd (fst r)).

Lemma survivors_nil_inv {A} (P : A -> Prop) l : survivors P [] l -> l = [].
Proof. intros S. now inversion S. Qed.
Lemma clean_nil q distance nhits kept : clean q distance nhits [] kept -> kept = [].
Proof.
  intros (a & b & c & S & F & N & F'). apply survivors_nil_inv in S. subst a. inversion F; subst. assert (c = []).
  { unfold not_isolated in N. destruct distance as [|dx [|dy [|dz [|]]]]; try contradiction; [now apply survivors_nil_inv in N|]. destruct nhits; [|contradiction]. destruct N as [_ N]. destruct c as [|h c]; [reflexivity|]. exfalso. apply (N h). now left. }
  subst. now inversion F'.
Qed.
Lemma peak_total i k thr df : (i < 2)%nat -> Forall2 row_of thr df ->
  DeconvSpec.total i (filter (fun h => key_eqb [qn k] (d_peak h)) df) == HitsSpec.total (energy_column i) (filter (fun h => (npeak h =? k)%nat) thr).
Proof.
  intros Hi F. induction F as [|h d thr df (e & ec & E1 & E2 & P & _ & _ & _ & _ & V) F IH]; [reflexivity|]. cbn [filter]. rewrite P.
  assert (K : key_eqb [qn k] [inject_Z (Z.of_nat (npeak h))] = (npeak h =? k)%nat).
  { destruct (Nat.eqb_spec (npeak h) k) as [->|N]; [apply key_eqb_iff; constructor; [reflexivity|constructor]|]. apply key_eqb_false. intros C. apply N. inversion C as [|? ? ? ? C1 _]; subst. change (inject_Z (Z.of_nat k) == inject_Z (Z.of_nat (npeak h))) in C1. apply (proj1 (inject_Z_injective _ _)) in C1. lia. }
  rewrite K. destruct (npeak h =? k)%nat; [|assumption]. unfold DeconvSpec.total, HitsSpec.total in *. rewrite !sumF_cons, IH. apply Qplus_comp; [|reflexivity]. rewrite V. destruct i as [|[|i]]; [cbn; now rewrite E1|cbn; now rewrite E2|lia].
Qed.

Section Beersheba.
  Variable nearest : list (Q * Q * Q) -> Q * Q * Q -> nat.
  Variable deconvolution : list (Q * Q * Q) -> Q -> list (Q * Q * Q).
  Variable round6 : Q -> Q.
  Variables (m : list kbin) (dvs : list (option Q)) (method : norm_method) (xy : option region).
  Notation run := (beersheba_event nearest deconvolution round6 m dvs method xy).

  (** peak by peak: the hits after the threshold, those that are above the charge cut and not isolated, the images of their slices, and the
      pixels above the cut, which share the energy that all the hits of the peak had after the threshold *)
  Theorem C100_peaks c ts hits out : sensible (b_drop_dist c) (b_cluster_size c) -> (b_energy c < 2)%nat -> run c ts hits = Ok out ->
    beersheba_hits nearest m dvs method xy false (b_apply_z c) (b_threshold c) (b_same_peak c) hits = Ok (bo_hits out) /\
    (forall r, In r (bo_deco out) -> snd r = ts / 1000) /\
    exists df kept, Forall2 row_of (bo_hits out) df /\ (bo_passed out = true <-> exists k, kept k <> []) /\
    forall k peak rows, picks d_peak k df peak -> picks peak_of k (bo_deco out) rows ->
      clean (b_q_cut c) (b_drop_dist c) (b_cluster_size c) peak (kept k) /\
      (kept k = [] /\ rows = []
       \/ kept k <> [] /\ exists slices pixels, slices_of (kept k) slices /\
          Forall2 (fun s px => survivors (DeconvPeak.above (b_cut_type c) (b_e_cut c) (image_of deconvolution (kept k) s)) (image_of deconvolution (kept k) s) px) slices pixels /\
          (rows = [] /\ concat pixels = []
           \/ proportional round6 (concat (map2 (fun s px => map (pair (fst s)) px) slices pixels)) (DeconvSpec.total (b_energy c) peak) (map (fun r => snd (fst r)) rows))).
  Proof.
    intros Se He. unfold beersheba_event. destruct (beersheba_hits _ _ _ _ _ _ _ _ _ _) as [thr|] eqn:E0; [|discriminate]. cbn [rbind]. destruct (to_rows 0 thr) as [df|] eqn:E1; [|discriminate]. cbn [rbind].
    destruct (to_rows_spec thr 0 df E1) as [F M]. assert (U : NoDup (map d_index df)) by (rewrite M; apply seq_NoDup).
    destruct (cut_over_Q _ _ df) as [d1|] eqn:E2; [|discriminate]. cbn [rbind]. destruct (drop_isolated _ _ _ d1) as [dd|] eqn:E3; [|discriminate]. cbn [rbind]. intros E.
    assert (C := cleaned _ _ _ df d1 dd Se U E2 E3). set (kept := fun k => filter (fun h => key_eqb k (d_peak h)) dd).
    assert (NE : dd <> [] <-> exists k, kept k <> []).
    { split; [|intros [k H] ->; now apply H]. destruct dd as [|d l]; [congruence|]. intros _. exists (d_peak d). unfold kept. cbn [filter]. rewrite (proj2 (key_eqb_iff _ _) (same_refl _)). discriminate. }
    assert (D : dd = [] \/ dd <> []) by (destruct dd; [left; reflexivity|right; discriminate]). destruct D as [D|ND].
    - assert (D' := NE). rewrite D in E. injection E as <-. cbn [bo_hits bo_deco bo_passed]. split; [reflexivity|]. split; [intros r []|]. exists df, kept. split; [assumption|]. split; [rewrite <- NE; split; [discriminate|congruence]|].
      intros k peak rows P1 P2. apply picks_filter in P1. subst peak. split; [apply C|]. left. split; [unfold kept; now rewrite D|]. now inversion P2.
    - destruct (apply_deconvolution _ _ _ _ _ dd) as [deco|] eqn:E4; [|exfalso; clear - E ND; destruct dd; [congruence|discriminate]].
      assert (X : out = {| bo_hits := thr; bo_passed := true; bo_deco := map (fun d => (d, ts / 1000)) deco |}) by (clear - E ND; destruct dd; [congruence|]; injection E as <-; reflexivity). subst out. clear E. cbn [bo_hits bo_deco bo_passed].
      split; [reflexivity|]. split; [intros r Hr; apply in_map_iff in Hr; destruct Hr as (x & <- & _); reflexivity|]. exists df, kept. split; [assumption|]. split; [rewrite <- NE; tauto|].
      intros k peak rows P1 P2. apply picks_filter in P1. subst peak. destruct (C k) as [C1 C2]. fold (kept k) in C1, C2. split; [exact C1|]. apply picks_filter in P2.
      assert (FM : rows = map (fun d => (d, ts / 1000)) (filter (fun a => key_eqb k (fst a)) deco)) by (subst rows; clear; induction deco as [|a l IH]; cbn; [reflexivity|]; unfold peak_of at 1; cbn; destruct (key_eqb k (fst a)); cbn; now rewrite IH).
      destruct (C44_peaks deconvolution round6 (b_cut_type c) (b_e_cut c) (b_energy c) dd deco E4 k (kept k) (filter (fun a => key_eqb k (fst a)) deco)) as [[K1 K2]|(slices & pixels & S1 & S2 & S3)]; [now apply picks_filter|now apply picks_filter| |].
      + left. split; [assumption|]. rewrite FM, K2. reflexivity.
      + destruct (kept k) as [|x y] eqn:EK.
        * left. split; [reflexivity|]. assert (slices = []). { destruct slices as [|s ss]; [reflexivity|]. exfalso. destruct S1 as (_ & S1 & _). destruct (S1 s (or_introl eq_refl)) as [N P]. apply N. now inversion P. } subst slices. inversion S2; subst pixels. destruct S3 as [[R _]|(ex & _ & _ & R & _)]; [rewrite FM, R; reflexivity|]. cbn in R. inversion R as [R'|]. rewrite FM. destruct (filter _ deco); [reflexivity|discriminate].
        * rewrite <- EK in *. right. assert (N : kept k <> []) by (rewrite EK; discriminate). split; [assumption|]. exists slices, pixels. split; [assumption|]. split; [assumption|]. destruct S3 as [[R1 R2]|R]; [left; split; [rewrite FM, R1; reflexivity|assumption]|right].
          rewrite FM, map_map. cbn [fst snd]. eapply proportional_eq; [|exact R]. now apply C2.
  Qed.
  (** the deconvolved hits of a peak carry the energy the peak had after the threshold, up to the rounding *)
  Theorem C100_energy err c ts hits out : (forall x, Qabs (round6 x - x) <= err) -> sensible (b_drop_dist c) (b_cluster_size c) -> (b_energy c < 2)%nat -> run c ts hits = Ok out ->
    forall k rows, picks peak_of [qn k] (bo_deco out) rows -> rows <> [] ->
    Qabs (sumF energy_of_row rows - HitsSpec.total (energy_column (b_energy c)) (filter (fun h => (npeak h =? k)%nat) (bo_hits out))) <= qn (length rows) * err.
  Proof.
    intros Hr Se He E k rows P NE. destruct (C100_peaks c ts hits out Se He E) as (_ & _ & df & kept & F & _ & H). destruct (H [qn k] _ rows (proj2 (picks_filter _ _ _ _) eq_refl) P) as (_ & [[_ C]|(_ & slices & pixels & _ & _ & [[C _]|(ex & X1 & X2 & _)])]); try contradiction.
    rewrite <- (peak_total (b_energy c) k (bo_hits out) df He F), <- X1. rewrite map_map in X2.
    assert (L : length ex = length rows) by (rewrite <- (map_length round6 ex), <- X2, map_length; reflexivity).
    assert (S : sumF energy_of_row rows == sumQ (map round6 ex)) by (rewrite <- X2; reflexivity). rewrite S, <- L. clear - Hr.
    induction ex as [|v l IH]; [assert (E0 : Qabs (sumQ [] - sumQ []) == 0) by reflexivity; assert (E1 : qn 0 * err == 0) by (change (qn 0) with 0; ring); cbn [map length]; rewrite E0, E1; apply Qle_refl|]. cbn [map]. change (Qabs (round6 v + sumQ (map round6 l) - (v + sumQ l)) <= qn (S (length l)) * err). rewrite qn_S.
    assert (T := Qabs_triangle (round6 v - v) (sumQ (map round6 l) - sumQ l)). assert (E : round6 v + sumQ (map round6 l) - (v + sumQ l) == round6 v - v + (sumQ (map round6 l) - sumQ l)) by ring. rewrite E. specialize (Hr v). lra.
  Qed.
  (** the event: if no peak is lost, the deconvolved hits carry the energy of the corrected hits, up to the rounding and the regulator of the threshold *)
  Theorem C100_event err c ts hits out : takes_nearest nearest -> usable_map m method xy -> (b_apply_z c = true -> numbers dvs <> []) ->
    (forall b mu, In b m -> kb_mu b = Some mu -> 0 < mu) -> 0 < b_threshold c ->
    (forall h, In h hits -> 0 <= val (hE h)) -> (forall h, In h hits -> exists g, In g hits /\ b_threshold c <= hQ g /\ eligible (b_same_peak c) h g) ->
    (forall x, Qabs (round6 x - x) <= err) -> sensible (b_drop_dist c) (b_cluster_size c) -> (b_energy c < 2)%nat -> run c ts hits = Ok out ->
    (forall h, In h (bo_hits out) -> exists r, In r (bo_deco out) /\ same_key [qn (npeak h)] (peak_of r)) ->
    exists mid dv, velocity dvs (b_apply_z c) dv /\ Forall2 (corrected_hit m dv) hits mid /\
    let e := sumF energy_of_row (bo_deco out) in let before := HitsSpec.total (energy_column (b_energy c)) mid in let slack := qn (length (bo_deco out)) * err in
    before * b_threshold c <= (e + slack) * (b_threshold c + EPSILON) /\
    e <= before + qn (length (distinct_q (map hZ mid))) * EPSILON + slack.
  Proof.
    intros G U V Mp T En El Hr Se He E Lost. destruct (C80_beersheba nearest G m dvs method xy U (b_apply_z c) (b_threshold c) (b_same_peak c) hits V T) as (mid & dv & thr & Hv & F & Et & _ & Ke). destruct (Ke Mp En El) as [Ke1 Ke2]. clear Ke. exists mid, dv. split; [assumption|]. split; [assumption|]. cbv zeta.
    destruct (C100_peaks c ts hits out Se He E) as (Et' & _ & df & kept & Fd & _ & H). rewrite Et in Et'. injection Et' as ->.
    assert (K : kept_energy (b_threshold c) mid (bo_hits out) (energy_column (b_energy c))) by (destruct (b_energy c); assumption). clear Ke1 Ke2.
    set (S := sumF energy_of_row (bo_deco out)). set (t := HitsSpec.total (energy_column (b_energy c)) (bo_hits out)).
    assert (Close : Qabs (S - t) <= qn (length (bo_deco out)) * err).
    { set (keys := group_keys (map d_peak df)).
      assert (Dk : distinct_list keys) by apply group_keys_distinct.
      assert (C1 : forall d, In d df -> exists k, In k keys /\ same_key k (d_peak d)) by (intros d Hd; destruct (group_keys_covers (map d_peak df) (d_peak d)) as (k & Ik & Sk); [now apply in_map|]; exists k; split; [assumption|now apply same_sym]).
      assert (C2 : forall r, In r (bo_deco out) -> exists k, In k keys /\ same_key k (peak_of r)).
      { intros r Ir. destruct (filter (fun h => key_eqb (peak_of r) (d_peak h)) df) as [|d l] eqn:Fl.
        - exfalso. destruct (H (peak_of r) [] (filter (fun a => key_eqb (peak_of r) (peak_of a)) (bo_deco out))) as [Cl Hx]; [apply picks_filter; now rewrite Fl|now apply picks_filter|]. apply clean_nil in Cl. destruct Hx as [[_ Hx]|[Hx _]]; [|contradiction]. assert (I : In r []); [rewrite <- Hx; apply filter_In; split; [assumption|]; apply key_eqb_iff, same_refl|destruct I].
        - assert (I : In d (filter (fun h => key_eqb (peak_of r) (d_peak h)) df)) by (rewrite Fl; now left). apply filter_In in I. destruct I as [I Ek]. apply key_eqb_iff in Ek. destruct (C1 d I) as (k & Ik & Sk). exists k. split; [assumption|]. eapply same_trans; [exact Sk|now apply same_sym]. }
      assert (Ht : t == DeconvSpec.total (b_energy c) df). { unfold t. clear - Fd He. induction Fd as [|h d thr df (e & ec & E1 & E2 & _ & _ & _ & _ & _ & Vd) Fd IH]; [reflexivity|]. unfold HitsSpec.total, DeconvSpec.total in *. rewrite !sumF_cons, IH. apply Qplus_comp; [|reflexivity]. rewrite Vd. destruct (b_energy c) as [|[|i]]; [cbn; now rewrite E1|cbn; now rewrite E2|lia]. }
      rewrite Ht. unfold S, DeconvSpec.total. rewrite (total_peaks d_peak _ keys df Dk C1), (total_peaks peak_of energy_of_row keys (bo_deco out) Dk C2).
      assert (Ln : qn (length (bo_deco out)) * err == sumF (fun k => qn (length (filter (fun r => key_eqb k (peak_of r)) (bo_deco out))) * err) keys).
      { assert (Lc : forall l : list (list Q * deco * Q), qn (length l) * err == sumF (fun _ => err) l) by (induction l as [|a l IH]; [unfold sumF; cbn [map sumQ fold_right length]; change (qn 0) with 0; ring|]; cbn [length]; rewrite qn_S, sumF_cons, <- IH; ring).
        rewrite Lc, (total_peaks peak_of (fun _ => err) keys (bo_deco out) Dk C2). apply sumF_ext. intros k _. symmetry. apply Lc. }
      rewrite Ln. assert (Each : forall k, In k keys -> Qabs (sumF energy_of_row (filter (fun r => key_eqb k (peak_of r)) (bo_deco out)) - sumF (fun h => nth (b_energy c) (dvars h) 0) (filter (fun h => key_eqb k (d_peak h)) df)) <= qn (length (filter (fun r => key_eqb k (peak_of r)) (bo_deco out))) * err).
      { intros k Ik. apply group_keys_in in Ik. apply in_map_iff in Ik. destruct Ik as (d & Ed & Id). destruct (in_right Fd Id) as (h & Ih & (e & ec & _ & _ & Pd & _)). assert (Ekk : k = [qn (npeak h)]) by (rewrite <- Ed, Pd; reflexivity). subst k. rewrite Ekk.
        assert (X := C100_energy err c ts hits out Hr Se He E (npeak h) (filter (fun r => key_eqb [qn (npeak h)] (peak_of r)) (bo_deco out))). rewrite <- (peak_total (b_energy c) (npeak h) (bo_hits out) df He Fd) in X. unfold DeconvSpec.total in X. apply X; [now apply picks_filter|].
        destruct (Lost h Ih) as (r & Ir & Sr). intros N. assert (I : In r []); [rewrite <- N; apply filter_In; split; [assumption|now apply key_eqb_iff]|destruct I]. }
      clear - Each. induction keys as [|k ks IH]; [vm_compute; discriminate|]. rewrite !sumF_cons. assert (A := Each k (or_introl eq_refl)). specialize (IH (fun k H => Each k (or_intror H))).
      match goal with |- Qabs (?a + ?b - (?c + ?d)) <= _ => assert (Eq : a + b - (c + d) == a - c + (b - d)) by ring; rewrite Eq; assert (T := Qabs_triangle (a - c) (b - d)) end. lra. }
    destruct K as [K1 K2]. fold t in K1, K2. apply Qabs_Qle_condition in Close. destruct Close as [A B]. pose proof eps_pos as H0. split.
    - eapply Qle_trans; [exact K1|]. apply Qmult_le_compat_r; [clear - A|clear - T H0; lra]. set (p2 := qn (length (bo_deco out)) * err) in *. clearbody p2. lra.
    - change (t <= HitsSpec.total (energy_column (b_energy c)) mid + qn (length (distinct_q (map hZ mid))) * EPSILON) in K2. set (p1 := qn (length (distinct_q (map hZ mid))) * EPSILON) in *. set (p2 := qn (length (bo_deco out)) * err) in *. set (p3 := HitsSpec.total (energy_column (b_energy c)) mid) in *. clearbody p1 p2 p3 S t. clear - K2 B. lra.
  Qed.
End Beersheba.
Print Assumptions C100_peaks.
Print Assumptions C100_energy.
Print Assumptions C100_event.
