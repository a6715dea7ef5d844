(** C90: a krypton map flattens the data it comes from *)
From Verif Require Import Base Arrays PeaksModel PeaksProofs BuffersProofs WfmModel WfmProps XyProps PmapioProofs KrProps DbModel DbProps DbThr CorrModel CorrSpec CorrProps CorrMore KmapModel KmapSpec KmapProps KmapGrid ZemModel ZemSpec.
Local Open Scope Q_scope.

(** the centre of the interval that contains a point is closer than any other centre *)
Lemma closer_centre a b n k k' x : (0 < n)%nat -> a < b -> inside_interval a b n k x -> k <> k' ->
  (x - bin_centre a b n k) * (x - bin_centre a b n k) < (x - bin_centre a b n k') * (x - bin_centre a b n k').
Proof.
  intros Hn Hab [H1 H2] N. assert (Pn : 0 < qn n) by (apply qn_pos; lia). unfold bin_centre. assert (W : 0 < (b - a) / qn n) by (apply Qlt_shift_div_l; lra). set (w := (b - a) / qn n) in *. clearbody w. rewrite qn_S in H2.
  set (u := x - (a + (qn k + (1 # 2)) * w)). assert (U : - w < 2 * u < w) by (unfold u; lra).
  destruct (lt_dec k k') as [L|L].
  - assert (K : qn k + 1 <= qn k') by (rewrite <- qn_S; apply qn_le; lia). set (d := qn k' - qn k). assert (D : 1 <= d) by (unfold d; lra). assert (E : x - (a + (qn k' + (1 # 2)) * w) == u - d * w) by (unfold u, d; ring). rewrite E. fold u. assert (V : w <= d * w) by nra. set (v := d * w) in *. clearbody v u. assert (0 < v * (v - 2 * u)) by (apply Qmult_lt_0_compat; lra). lra.
  - assert (K : qn k' + 1 <= qn k) by (rewrite <- qn_S; apply qn_le; lia). set (d := qn k - qn k'). assert (D : 1 <= d) by (unfold d; lra). assert (E : x - (a + (qn k' + (1 # 2)) * w) == u + d * w) by (unfold u, d; ring). rewrite E. fold u. assert (V : w <= d * w) by nra. set (v := d * w) in *. clearbody v u. assert (0 < v * (v + 2 * u)) by (apply Qmult_lt_0_compat; lra). lra.
Qed.
Lemma closer_centre_le a b n k k' x : (0 < n)%nat -> a < b -> inside_interval a b n k x ->
  (x - bin_centre a b n k) * (x - bin_centre a b n k) <= (x - bin_centre a b n k') * (x - bin_centre a b n k').
Proof. intros Hn Hab H. destruct (Nat.eq_dec k k') as [->|N]; [lra|]. apply Qlt_le_weak. now apply closer_centre. Qed.

(** medians *)
Lemma permutation_forall2 {A B} (R : A -> B -> Prop) l s : Permutation s l -> forall l', Forall2 R l l' -> exists s', Permutation s' l' /\ Forall2 R s s'.
Proof.
  induction 1 as [|x s l P IH|x y l|s m l P1 IH1 P2 IH2]; intros l' F.
  - exists l'. split; [reflexivity|assumption].
  - inversion F as [|? b ? l0 Rb F']; subst. destruct (IH _ F') as (s' & P' & F''). exists (b :: s'). split; [now constructor|now constructor].
  - inversion F as [|? b ? l0 Rb F']; subst. inversion F' as [|? c ? l1 Rc F'']; subst. exists (c :: b :: l1). split; [apply perm_swap|repeat constructor; assumption].
  - destruct (IH2 _ F) as (m' & Pm & Fm). destruct (IH1 _ Fm) as (s' & Ps & Fs). exists s'. split; [now transitivity m'|assumption].
Qed.
Lemma forall2_nth {A B} (R : A -> B -> Prop) l l' i d d' : Forall2 R l l' -> (i < length l)%nat -> R (nth i l d) (nth i l' d').
Proof. intros F. revert i. induction F as [|a b l l' H F IH]; intros [|i] L; cbn in *; try lia; [assumption|apply IH; lia]. Qed.
Lemma forall2_len {A B} (R : A -> B -> Prop) l l' : Forall2 R l l' -> length l = length l'. Proof. induction 1; cbn; congruence. Qed.
Lemma median_scaled l l' m c : 0 < c -> Forall2 (fun x y => y == x * c) l l' -> is_median l m -> has_median l' (m * c).
Proof.
  intros C F [N (s & P & S & M)]. destruct (permutation_forall2 _ _ _ P _ F) as (s' & P' & F'). pose proof (forall2_len _ _ _ F') as L.
  assert (S' : StronglySorted Qle s').
  { clear - C S F'. induction F' as [|x y s s' H F IH]; [constructor|]. inversion S as [|? ? S1 S2]; subst. constructor; [now apply IH|]. clear - C S2 H F. induction F as [|x' y' s s' H' F IH]; constructor; inversion S2; subst; [|now apply IH]. rewrite H, H'. nra. }
  assert (N' : l' <> []) by (intros ->; inversion F; subst; contradiction).
  assert (Ls : (0 < length s)%nat) by (destruct s; [apply Permutation_length in P; destruct l; [contradiction|discriminate]|cbn; lia]).
  destruct M as [(h & H1 & H2)|(h & H1 & H2)].
  - exists (nth h s' 0). split; [split; [assumption|]; exists s'; repeat split; try assumption; left; exists h; split; [lia|reflexivity]|]. subst m. apply (forall2_nth (fun x y => y == x * c)); [assumption|lia].
  - exists ((nth (h - 1) s' 0 + nth h s' 0) / 2). split; [split; [assumption|]; exists s'; repeat split; try assumption; right; exists h; split; [lia|reflexivity]|].
    pose proof (forall2_nth (fun x y => y == x * c) s s' (h - 1) 0 0 F' ltac:(lia)) as E1. pose proof (forall2_nth (fun x y => y == x * c) s s' h 0 0 F' ltac:(lia)) as E2. cbn beta in E1, E2. rewrite E1, E2, H2. field.
Qed.
Lemma median_between l m lo hi : is_median l m -> (forall x, In x l -> lo <= x <= hi) -> lo <= m <= hi.
Proof.
  intros [N (s & P & S & M)] H. assert (Hs : forall i, (i < length s)%nat -> lo <= nth i s 0 <= hi) by (intros i Hi; apply H, (Permutation_in _ P), nth_In, Hi).
  assert (Ls : (0 < length s)%nat) by (destruct s; [apply Permutation_length in P; destruct l; [contradiction|discriminate]|cbn; lia]).
  destruct M as [(h & H1 & ->)|(h & H1 & H2)]; [apply Hs; lia|]. pose proof (Hs (h - 1)%nat ltac:(lia)). pose proof (Hs h ltac:(lia)).
  assert (E : (nth (h - 1) s 0 + nth h s 0) / 2 == (nth (h - 1) s 0 + nth h s 0) * (1 # 2)) by field. rewrite H2, E. lra.
Qed.

Lemma fits_key nz n k i j : fits_in nz n n (k, i, j) <-> (k < nz /\ i < n /\ j < n)%nat. Proof. cbn. tauto. Qed.

Section Flat.
  Variable nearest : list (Q * Q * Q) -> Q * Q * Q -> nat.
  Hypothesis griddata : takes_nearest nearest.
  Variables (xy0 xy1 dt0 dt1 : Q) (n nz : nat) (s0 s1 : Q).
  Hypothesis Hn : (0 < n)%nat.
  Hypothesis Hz : (0 < nz)%nat.
  Hypothesis Hxy : xy0 < xy1.
  Hypothesis Hdt : dt0 < dt1.
  Hypothesis Hs : 0 < s0.
  Notation energies := (bin_energies xy0 xy1 dt0 dt1 n nz s0 s1).
  Notation raw := (raw xy0 xy1 dt0 dt1 n nz s0 s1).
  Notation corrected := (corrected xy0 xy1 dt0 dt1 n nz s0 s1).
  Notation in_cell := (in_cell xy0 xy1 dt0 dt1 n nz s0 s1).
  Notation off_border := (off_border xy0 xy1 dt0 dt1 n nz).
  Lemma raw_energies df p : energies df p = raw df p.
  Proof.
    destruct p as [[k i] j]. unfold ZemSpec.raw. induction df as [|e df IH]; [reflexivity|]. cbn [bin_energies flat_map filter] in *. rewrite IH. cbn [ZemSpec.in_cell].
    destruct (kX e), (kY e), (kDT e), (kS2e e) eqn:Es; try reflexivity. destruct (_ && _); [|reflexivity]. cbn [map]. rewrite Es. reflexivity.
  Qed.
  Lemma raw_range df p x : In x (raw df p) -> s0 <= x <= s1.
  Proof.
    intros H. unfold ZemSpec.raw in H. apply in_numbers, in_map_iff in H. destruct H as (e & E & H). apply filter_In in H. destruct H as [_ H]. destruct p as [[k i] j]. cbn in H. destruct (kX e), (kY e), (kDT e); try discriminate. rewrite E in H.
    apply andb_true_iff in H. destruct H as [_ H]. apply andb_true_iff in H. destruct H as [A B]. apply Qleb_le in A. apply Qltb_lt in B. lra.
  Qed.
  Section AnyFit.
    Variable fit : list Q -> fitted.
    (** the energies fitted are positive *)
    Hypothesis fit_range : forall l m, l <> [] -> (forall x, In x l -> s0 <= x <= s1) -> mu (fit l) = Some m -> (1 # 2) * s0 <= m <= 2 * s1.
    Variables (df : list krevent) (rows : list map_row).
    Hypothesis made : compute_3D_map fit xy0 xy1 dt0 dt1 n nz s0 s1 df = Ok rows.
    Notation measured := (measured xy0 xy1 dt0 dt1 n nz s0 s1 fit).
    Lemma measured_range p m : mu (measured df p) = Some m -> (1 # 2) * s0 <= m <= 2 * s1.
    Proof using fit_range.
      unfold KmapSpec.measured. rewrite raw_energies. pose proof (raw_range df p) as R. destruct (raw df p) as [|x l]; [discriminate|]. apply fit_range; [discriminate|assumption].
    Qed.
    Lemma rows_positive b m : In b (map bin_of_row rows) -> kb_mu b = Some m -> 0 < m.
    Proof using All.
      intros Hb Hm. apply in_map_iff in Hb. destruct Hb as (r & <- & Hr). destruct (C40_map fit xy0 xy1 dt0 dt1 n nz s0 s1 Hn Hz df rows made) as ((_ & G) & _ & final & F & R).
      unfold bin_of_row in Hm. pose proof (proj1 (G (fst (fst (r_key r))) (snd (fst (r_key r))) (snd (r_key r)))) as G1. pose proof (F r Hr) as Fr. destruct (r_key r) as [[k i] j] eqn:Ek. destruct (r_coord r) as [[t x] y]. cbn in Hm, G1.
      assert (G2 : (k < nz /\ i < n /\ j < n)%nat) by (apply G1; rewrite <- Ek; now apply in_map). rewrite Fr in Hm.
      pose proof (C40_bounds nz n n _ _ ((1 # 2) * s0) (2 * s1) R) as B. destruct (B (fun k i j q _ _ _ H => measured_range (k, i, j) q H) k i j m) as [B1 _]; try tauto. lra.
    Qed.
    Lemma own_row p v : fits_in nz n n p -> mu (measured df p) = Some v -> exists r, In r rows /\ r_key r = p /\ mu (r_fit r) = Some v.
    Proof using All.
      intros Fp Hv. destruct (C40_map fit xy0 xy1 dt0 dt1 n nz s0 s1 Hn Hz df rows made) as ((_ & G) & _ & final & F & R). destruct p as [[k i] j]. apply fits_key in Fp. pose proof (proj2 (G k i j) Fp) as I. apply in_map_iff in I. destruct I as (r & Er & Hr).
      exists r. split; [assumption|]. split; [assumption|]. rewrite (F r Hr), Er. destruct Fp as (F1 & F2 & F3). destruct (R k i j F1 F2 F3) as (R1 & _). rewrite R1; [assumption|]. rewrite Hv. discriminate.
    Qed.
    (** the bin taken for an event is its own, if it has a value *)
    Lemma own_bin r v t x y b m : In r rows -> mu (r_fit r) = Some v -> (let '(k, i, j) := r_key r in inside_interval dt0 dt1 nz k t /\ inside_interval xy0 xy1 n i x /\ inside_interval xy0 xy1 n j y) ->
      nearest_bin (map bin_of_row rows) (t, x, y) b m -> m = v.
    Proof using All.
      intros Hr Em In3 (B1 & B2 & B3). destruct (r_key r) as [[k i] j] eqn:Er. destruct In3 as (It & Ix & Iy). apply in_map_iff in B1. destruct B1 as (r' & <- & Hr').
      destruct (C40_map fit xy0 xy1 dt0 dt1 n nz s0 s1 Hn Hz df rows made) as ((Srt & G) & C & _).
      specialize (B3 (bin_of_row r) (in_map bin_of_row _ _ Hr)). destruct (C r Hr) as (_ & _ & _ & _ & Cr). destruct (C r' Hr') as (_ & _ & _ & _ & Cr').
      assert (Same : (k, i, j) = r_key r' -> m = v).
      { rewrite <- Er. intros E. assert (r = r'); [|subst r'; unfold bin_of_row in B2; destruct (r_key r) as [[? ?] ?], (r_coord r) as [[? ?] ?]; cbn in B2; congruence].
        clear - Srt Hr Hr' E. induction rows as [|a l IH]; [destruct Hr|]. cbn in Srt. inversion Srt as [|? ? S1 S2]; subst. rewrite Forall_forall in S2.
        destruct Hr as [->|Hr], Hr' as [->|Hr']; [reflexivity| | |now apply IH]; exfalso.
        - specialize (S2 (r_key r') (in_map _ _ _ Hr')). rewrite <- E in S2. now apply before_irrefl in S2.
        - specialize (S2 (r_key r) (in_map _ _ _ Hr)). rewrite E in S2. now apply before_irrefl in S2. }
      apply Same. rewrite ?Er in *. destruct (key_dec (k, i, j) (r_key r')) as [|N]; [assumption|exfalso].
      unfold bin_of_row in B3. rewrite Er in B3. destruct (r_key r') as [[k' i'] j']. destruct (r_coord r) as [[ct cx] cy]. destruct (r_coord r') as [[ct' cx'] cy']. cbn [kb_mu kb_dt kb_x kb_y] in B3. specialize (B3 ltac:(congruence)).
      cbn in Cr, Cr'. destruct Cr as (T1 & X1 & Y1), Cr' as (T2 & X2 & Y2). unfold dist2 in B3. rewrite T1, X1, Y1, T2, X2, Y2 in B3.
      pose proof (closer_centre_le dt0 dt1 nz k k' t Hz Hdt It) as L1. pose proof (closer_centre_le xy0 xy1 n i i' x Hn Hxy Ix) as L2. pose proof (closer_centre_le xy0 xy1 n j j' y Hn Hxy Iy) as L3.
      destruct (Nat.eq_dec k k') as [<-|Nk]; [|pose proof (closer_centre dt0 dt1 nz k k' t Hz Hdt It Nk); lra].
      destruct (Nat.eq_dec i i') as [<-|Ni]; [|pose proof (closer_centre xy0 xy1 n i i' x Hn Hxy Ix Ni); lra].
      destruct (Nat.eq_dec j j') as [<-|Nj]; [|pose proof (closer_centre xy0 xy1 n j j' y Hn Hxy Iy Nj); lra]. now apply N.
    Qed.
    Lemma summary_positive method l q : summary_of method l q -> (forall x, In x l -> 0 < x) -> 0 < q.
    Proof.
      intros H P. assert (G : is_greatest l q -> 0 < q) by (intros [I _]; now apply P).
      assert (M : is_mean l q -> 0 < q).
      { intros [N E]. assert (S : 0 < sumQ l). { destruct l as [|a l]; [contradiction|]. pose proof (P a (or_introl eq_refl)). assert (0 <= sumQ l); [|unfold sumQ in *; cbn; lra]. clear - P. induction l as [|b l IH]; [cbn; lra|]. assert (0 <= sumQ l) by (apply IH; intros x [->|Hx]; apply P; [now left|right; now right]). pose proof (P b ltac:(right; now left)). unfold sumQ in *. cbn. lra. }
        assert (L : 0 < qn (length l)) by (apply qn_pos; destruct l; [contradiction|cbn; lia]). nra. }
      assert (D : is_median l q -> 0 < q).
      { intros [N (s & Ps & _ & D)]. assert (X : forall i, (i < length s)%nat -> 0 < nth i s 0) by (intros i Hi; apply P, (Permutation_in _ Ps), nth_In, Hi). assert (Ls : (0 < length s)%nat) by (destruct s; [apply Permutation_length in Ps; destruct l; [contradiction|discriminate]|cbn; lia]).
        destruct D as [(h & D1 & ->)|(h & D1 & D2)]; [apply X; lia|]. pose proof (X (h - 1)%nat ltac:(lia)). pose proof (X h ltac:(lia)). assert (E : (nth (h - 1) s 0 + nth h s 0) / 2 == (nth (h - 1) s 0 + nth h s 0) * (1 # 2)) by field. rewrite D2, E. lra. }
      destruct method; cbn in H; auto.
    Qed.
    Lemma norm_exists method xy : can_normalize rows method xy -> exists q, normalization (map bin_of_row rows) method xy = Ok (Some q) /\ 0 < q.
    Proof using All.
      intros (b & Hb & U & Mb). assert (T : method <> OtherMethod /\ (needs_region method = true -> xy <> None)) by (split; [intros ->; discriminate|]; intros Nr ->; destruct method; cbn in *; discriminate).
      apply (C56_normalization_total (map bin_of_row rows)) in T. destruct T as (v & E). pose proof (C56_normalization _ _ _ _ E) as S. destruct v as [q|].
      - exists q. split; [assumption|]. eapply summary_positive; [exact S|]. intros x Hx. apply in_numbers, in_map_iff in Hx. destruct Hx as (b' & Eb & Hb'). apply filter_In in Hb'. eapply rows_positive; [exact (proj1 Hb')|assumption].
      - exfalso. cbn in S. destruct (kb_mu b) as [q|] eqn:Eb; [|contradiction]. assert (I : In q (numbers (map kb_mu (filter (used_bin method xy) (map bin_of_row rows))))). { apply in_numbers. apply in_map_iff. exists b. split; [assumption|]. apply filter_In. split; assumption. } rewrite S in I. destruct I.
    Qed.
    (** every event inside a bin with a value is divided by it *)
    Definition divided (e : krevent) (c : val) : Prop :=
      forall r v s, In r rows -> mu (r_fit r) = Some v -> off_border (r_key r) e -> kS2e e = Some s -> exists q, c = Some q /\ q == s * ((4155 # 100) / v).
    Lemma self_applied method xy : complete df -> can_normalize rows method xy ->
      exists ec, apply_selfmap nearest method xy (Some keV) df rows = Ok ec /\ Forall2 divided df ec.
    Proof using All.
      intros Cm Cn. destruct (norm_exists method xy Cn) as (q & Eq & Pq). unfold apply_selfmap.
      assert (D : exists pts, rmap data_point df = Ok pts /\ Forall2 (fun e d => exists t x y, kDT e = Some t /\ kX e = Some x /\ kY e = Some y /\ d = ((t, x, y), kS2e e)) df pts).
      { apply rmap_all_forall2. intros e He. destruct (Cm e He) as (C1 & C2 & C3). unfold data_point. destruct (kDT e), (kX e), (kY e); try congruence. eexists. split; [reflexivity|]. eexists _, _, _. repeat split; reflexivity. }
      destruct D as (pts & Ep & Fp). rewrite Ep. cbn [rbind]. assert (Has : exists b, In b (map bin_of_row rows) /\ kb_mu b <> None) by (destruct Cn as (b & C1 & C2 & C3); eauto).
      destruct (C56_with_unit nearest griddata (map bin_of_row rows) method xy keV pts q Has) as (ec & Ee & Fe); [|discriminate|assumption|lra|].
      { intros b m Hb Hm Z. pose proof (rows_positive b m Hb Hm). lra. }
      exists ec. split; [exact Ee|]. revert ec Fe Ee. revert Fp. clear Ep. generalize df at 1 2. intros l0 Fp ec Fe _. revert ec Fe. induction Fp as [|e d l pts (t & x & y & Dt & Dx & Dy & ->) Fp IH]; intros ec Fe; inversion Fe as [|? c ? ec2 Hc Fe2 ]; subst ec; [constructor|]. constructor; [|now apply IH].
      intros r v s Hr Hv Off Es. unfold corrected_with_unit in Hc. cbn [fst snd] in Hc. rewrite Es in Hc. destruct Hc as (q' & b & m & -> & Nb & E). exists q'. split; [reflexivity|].
      assert (m = v) as ->. { eapply own_bin; [exact Hr|exact Hv| |exact Nb]. destruct (r_key r) as [[k i] j]. destruct Off as (t' & x' & y' & O1 & O2 & O3 & O4). rewrite Dt in O1. rewrite Dx in O2. rewrite Dy in O3. injection O1 as <-. injection O2 as <-. injection O3 as <-. exact O4. }
      assert (Pv : 0 < v) by (destruct Nb as (N1 & N2 & _); eapply rows_positive; eassumption). assert (K : q' * v == s * (4155 # 100)). { unfold keV in E. assert (K : q' * v * (1 # 1000) == s * (4155 # 100) * (1 # 1000)) by exact E. lra. }
      assert (E2 : s * ((4155 # 100) / v) == s * (4155 # 100) / v) by (field; lra). rewrite E2, <- K. field. lra.
    Qed.
    (** so the median of the events of a bin becomes 41.55 times its ratio to the value of the bin *)
    Lemma flattened ec p v med : Forall2 divided df ec -> fits_in nz n n p -> mu (measured df p) = Some v -> 0 < v -> is_median (raw df p) med -> (forall e, In e df -> in_cell p e = true -> off_border p e) ->
      has_median (corrected df ec p) (med * ((4155 # 100) / v)).
    Proof using All.
      intros F Fp Hv Pv M Off. destruct (own_row p v Fp Hv) as (r & Hr & Er & Em). eapply median_scaled; [|clear M|exact M].
      - apply Qlt_shift_div_l; lra.
      - unfold ZemSpec.raw, ZemSpec.corrected. assert (G : forall l ec, (forall e, In e l -> in_cell p e = true -> off_border p e) -> Forall2 divided l ec -> Forall2 (fun x y => y == x * ((4155 # 100) / v)) (numbers (map kS2e (filter (in_cell p) l))) (numbers (map snd (filter (fun ec => in_cell p (fst ec)) (combine l ec))))).
        { intros l ec' Off' F'. induction F' as [|e c l ec' H F' IH]; [constructor|]. cbn [combine filter fst]. specialize (IH (fun e' He' => Off' e' (or_intror He'))). destruct (in_cell p e) eqn:Ei; [|exact IH]. cbn [map snd].
          assert (Es : exists s, kS2e e = Some s). { clear - Ei. destruct p as [[k i] j]. cbn in Ei. destruct (kX e), (kY e), (kDT e), (kS2e e); try discriminate. eauto. } destruct Es as (s & Es). specialize (Off' e (or_introl eq_refl) Ei). rewrite <- Er in Off'. destruct (H r v s Hr Em Off' Es) as (q & -> & Q). rewrite Es. cbn [numbers]. now constructor. }
        apply G; assumption.
    Qed.
  End AnyFit.
End Flat.

(** the fits of zemrude give energies within the range, up to a factor of two *)
Lemma get_median_mu std over_sqrt l m : mu (get_median std over_sqrt l) = Some m -> m = median l /\ (5 <= length l)%nat.
Proof. unfold get_median. cbn [mu]. destruct (Nat.ltb_spec (length l) 5); [discriminate|]. injection 1 as <-. split; [reflexivity|lia]. Qed.
Lemma median_fit_range std over_sqrt s0 s1 l m : 0 < s0 -> l <> [] -> (forall x, In x l -> s0 <= x <= s1) -> mu (get_median std over_sqrt l) = Some m -> (1 # 2) * s0 <= m <= 2 * s1.
Proof. intros P N H E. apply get_median_mu in E. destruct E as [-> _]. pose proof (median_between l (median l) s0 s1 (median_is l N) H). lra. Qed.
Lemma gaussian_fit_range std over_sqrt fit nbins min_events s0 s1 l m : 0 < s0 -> l <> [] -> (forall x, In x l -> s0 <= x <= s1) -> mu (gaussian_fit std over_sqrt fit nbins min_events l) = Some m -> (1 # 2) * s0 <= m <= 2 * s1.
Proof.
  intros P N H E. pose proof (median_between l (median l) s0 s1 (median_is l N) H) as B. destruct (C40_fit std over_sqrt fit nbins min_events l (median l) (median_is l N) ltac:(lra)) as [_ M]. cbv zeta in M. rewrite E in M. destruct M as [M|M]; lra.
Qed.
Lemma forall2_length' {A B} (R : A -> B -> Prop) l l' : Forall2 R l l' -> length l' = length l. Proof. induction 1; cbn; congruence. Qed.

Section C90.
  Variable std : list Q -> val.
  Variable over_sqrt : val -> nat -> val.
  Variable fit : list Q -> nat -> option (val * val * val * val).
  Variable nearest : list (Q * Q * Q) -> Q * Q * Q -> nat.
  Hypothesis griddata : takes_nearest nearest.
  Variables (xy0 xy1 dt0 dt1 : Q) (n nz : nat) (s0 s1 : Q) (nbins min_events : nat) (method : norm_method) (xy : option region).
  Hypothesis ranges : xy0 < xy1 /\ dt0 < dt1 /\ 0 < s0.
  Notation create := (create_selfmap std over_sqrt fit xy0 xy1 dt0 dt1 n nz s0 s1).
  Notation apply := (apply_selfmap nearest method xy (Some keV)).
  Notation raw := (raw xy0 xy1 dt0 dt1 n nz s0 s1).
  Notation corrected := (corrected xy0 xy1 dt0 dt1 n nz s0 s1).
  Notation in_cell := (in_cell xy0 xy1 dt0 dt1 n nz s0 s1).
  Notation off_border := (off_border xy0 xy1 dt0 dt1 n nz).

  (** both kinds of maps come from one computation, with fits that are close to the energies *)
  Lemma created name df rows : create name nbins min_events df = Ok rows -> exists f, compute_3D_map f xy0 xy1 dt0 dt1 n nz s0 s1 df = Ok rows /\ (0 < n)%nat /\ (0 < nz)%nat /\
    (forall l m, l <> [] -> (forall x, In x l -> s0 <= x <= s1) -> mu (f l) = Some m -> (1 # 2) * s0 <= m <= 2 * s1) /\
    (name = MedianFit -> f = get_median std over_sqrt) /\ (name = GaussianFit -> f = gaussian_fit std over_sqrt fit nbins min_events).
  Proof using ranges.
    intros H. assert (Z : forall f, compute_3D_map f xy0 xy1 dt0 dt1 n nz s0 s1 df = Ok rows -> (0 < n)%nat /\ (0 < nz)%nat).
    { intros f. unfold compute_3D_map. destruct (Nat.eqb_spec nz 0), (Nat.eqb_spec n 0); cbn [orb]; try discriminate. lia. }
    destruct name; cbn in H; [| |discriminate]; eexists; (split; [exact H|]; split; [eapply Z, H|]; split; [eapply Z, H|]; split; [|split; congruence]); intros; [eapply gaussian_fit_range|eapply median_fit_range]; try eassumption; tauto.
  Qed.
  (** Every event that is inside a bin with a value gets its energy over that value, times 41.55 keV, whatever the normalization. *)
  Theorem C90_events name df rows : create name nbins min_events df = Ok rows -> complete df -> can_normalize rows method xy ->
    exists ec, apply df rows = Ok ec /\ Forall2 (fun e c => forall r v s, In r rows -> mu (r_fit r) = Some v -> off_border (r_key r) e -> kS2e e = Some s -> exists q, c = Some q /\ q == s * ((4155 # 100) / v)) df ec.
  Proof using All.
    intros H C N. destruct (created _ _ _ H) as (f & M & Hn & Hz & R & _). destruct ranges as (R1 & R2 & R3). exact (self_applied nearest griddata xy0 xy1 dt0 dt1 n nz s0 s1 Hn Hz R1 R2 R3 f R df rows M method xy C N).
  Qed.
  (** With the fit by medians, the median of the corrected energies is 41.55 in every bin that has at least five events, none on its border. *)
  Theorem C90_median df rows : create MedianFit nbins min_events df = Ok rows -> complete df -> can_normalize rows method xy ->
    exists ec, apply df rows = Ok ec /\ length ec = length df /\
      forall k i j, (k < nz -> i < n -> j < n -> 5 <= length (raw df (k, i, j)) -> (forall e, In e df -> in_cell (k, i, j) e = true -> off_border (k, i, j) e) -> has_median (corrected df ec (k, i, j)) (4155 # 100))%nat.
  Proof using All.
    intros H C N. destruct (created _ _ _ H) as (f & M & Hn & Hz & R & F & _). rewrite (F eq_refl) in *. destruct ranges as (R1 & R2 & R3).
    destruct (self_applied nearest griddata xy0 xy1 dt0 dt1 n nz s0 s1 Hn Hz R1 R2 R3 _ R df rows M method xy C N) as (ec & E & D). exists ec. split; [assumption|]. split; [eapply forall2_length', D|].
    intros k i j Hk Hi Hj L Off. set (p := (k, i, j)) in *. assert (Nr : raw df p <> []) by (intros Er; rewrite Er in L; cbn in L; lia). pose proof (median_is _ Nr) as Md.
    assert (Mu : mu (measured xy0 xy1 dt0 dt1 n nz s0 s1 (get_median std over_sqrt) df p) = Some (median (raw df p))).
    { unfold measured. rewrite raw_energies. destruct (raw df p) as [|x l] eqn:Er; [contradiction|]. rewrite <- Er in *. unfold get_median. cbn [mu]. destruct (Nat.ltb_spec (length (raw df p)) 5); [lia|reflexivity]. }
    pose proof (median_between _ _ s0 s1 Md (raw_range xy0 xy1 dt0 dt1 n nz s0 s1 df p)) as B.
    destruct (flattened nearest griddata xy0 xy1 dt0 dt1 n nz s0 s1 Hn Hz R1 R2 R3 _ R df rows M ec p _ _ D (conj Hk (conj Hi Hj)) Mu ltac:(lra) Md Off) as (m & Hm & Em). exists m. split; [assumption|]. rewrite Em. field. lra.
  Qed.
  (** With the fit of gaussians it is between two thirds and twice as much, in every bin that has a fit. *)
  Theorem C90_gaussian df rows : create GaussianFit nbins min_events df = Ok rows -> complete df -> can_normalize rows method xy ->
    exists ec, apply df rows = Ok ec /\ length ec = length df /\
      forall k i j, (k < nz -> i < n -> j < n -> raw df (k, i, j) <> [] -> mu (gaussian_fit std over_sqrt fit nbins min_events (raw df (k, i, j))) <> None ->
        (forall e, In e df -> in_cell (k, i, j) e = true -> off_border (k, i, j) e) -> exists m, has_median (corrected df ec (k, i, j)) m /\ ((2 # 3) * (4155 # 100) < m <= 2 * (4155 # 100))%Q)%nat.
  Proof using All.
    intros H C N. destruct (created _ _ _ H) as (f & M & Hn & Hz & R & _ & F). rewrite (F eq_refl) in *. destruct ranges as (R1 & R2 & R3).
    destruct (self_applied nearest griddata xy0 xy1 dt0 dt1 n nz s0 s1 Hn Hz R1 R2 R3 _ R df rows M method xy C N) as (ec & E & D). exists ec. split; [assumption|]. split; [eapply forall2_length', D|].
    intros k i j Hk Hi Hj Nr Nm Off. set (p := (k, i, j)) in *. pose proof (median_is _ Nr) as Md. pose proof (median_between _ _ s0 s1 Md (raw_range xy0 xy1 dt0 dt1 n nz s0 s1 df p)) as B.
    destruct (mu (gaussian_fit std over_sqrt fit nbins min_events (raw df p))) as [v|] eqn:Ev; [|contradiction]. destruct (C40_fit std over_sqrt fit nbins min_events (raw df p) _ Md ltac:(lra)) as [_ G]. cbv zeta in G. rewrite Ev in G.
    assert (Mu : mu (measured xy0 xy1 dt0 dt1 n nz s0 s1 (gaussian_fit std over_sqrt fit nbins min_events) df p) = Some v).
    { unfold measured. rewrite raw_energies. destruct (raw df p) as [|x l] eqn:Er; [contradiction|]. exact Ev. }
    assert (Pv : 0 < v) by (destruct G; lra).
    exists (median (raw df p) * ((4155 # 100) / v)). split; [exact (flattened nearest griddata xy0 xy1 dt0 dt1 n nz s0 s1 Hn Hz R1 R2 R3 _ R df rows M ec p _ _ D (conj Hk (conj Hi Hj)) Mu Pv Md Off)|].
    set (med := median (raw df p)) in *. clearbody med. set (w := (4155 # 100) / v). assert (W : w * v == 4155 # 100) by (unfold w; field; lra). assert (Pw : 0 < w) by (apply Qlt_shift_div_l; lra). clearbody w. rewrite <- W.
    destruct G as [[G1 G2]|G]; [|rewrite <- G; split; nra]. split; [|nra]. assert (0 < w * ((3 # 2) * med - v)) by (apply Qmult_lt_0_compat; lra). lra.
  Qed.
End C90.
Print Assumptions C90_events.
Print Assumptions C90_median.
Print Assumptions C90_gaussian.
(** five events in a bin, one of them with twice the energy, and five in the next *)
Definition zem_ev (x s t : Q) : krevent := {| kX := Some x; kY := Some 1; kDT := Some 1; kS2e := Some s; ktime := t |}.
Definition zem_df : list krevent := [zem_ev 1 4 0; zem_ev 3 9 0; zem_ev 1 5 0; zem_ev 1 6 0; zem_ev 3 8 0; zem_ev 1 7 0; zem_ev 3 7 0; zem_ev 1 12 0; zem_ev 3 6 0; zem_ev 3 5 3600].
Example C90_ex : exists rows ec, create_selfmap (fun _ => None) (fun v _ => v) (fun _ _ => None) 0 4 0 2 2 1 1 20 MedianFit 5 5 zem_df = Ok rows /\
  map (fun r => mu (r_fit r)) rows = [Some 6; None; Some 7; None] /\ complete zem_df /\ can_normalize rows Maximum None /\
  apply_selfmap first_nearest Maximum None (Some keV) zem_df rows = Ok ec /\
  (length (raw 0 4 0 2 2 1 1 20 zem_df (0, 1, 0)) = 5)%nat /\ (forall e, In e zem_df -> in_cell 0 4 0 2 2 1 1 20 (0, 1, 0)%nat e = true -> off_border 0 4 0 2 2 1 (0, 1, 0)%nat e).
Proof.
  eexists _, _. split; [vm_compute; reflexivity|]. split; [reflexivity|]. split; [|split; [|split; [vm_compute; reflexivity|split; [reflexivity|]]]].
  - intros e He. repeat (destruct He as [<-|He]; [cbn; repeat split; discriminate|]). destruct He.
  - eexists. split; [left; reflexivity|]. split; [reflexivity|discriminate].
  - intros e He. repeat (destruct He as [<-|He]; [vm_compute; intros K; try discriminate K; eexists _, _, _; repeat split; reflexivity|]). destruct He.
Qed.
