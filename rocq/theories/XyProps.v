(** Properties C25 and C26 *)
From Verif Require Import Base PeaksModel Arrays WfmModel WfmSpec WfmProps XyModel XySpec.
Local Open Scope Q_scope.

Lemma filter_all {A} (p : A -> bool) l : (forall x, In x l -> p x = true) -> filter p l = l.
Proof. induction l as [|a l IH]; intros H; cbn; [reflexivity|]. rewrite (H a) by now left. f_equal. apply IH. intros; apply H; now right. Qed.

Lemma threshold_check_ok ss thr l : threshold_check ss thr = Ok l <->
  ss <> [] /\ ~ sumF charge ss == 0 /\ l = filter (fun s => Qle_bool thr (charge s)) ss /\ l <> [] /\ ~ sumF charge l == 0.
Proof.
  unfold threshold_check. destruct ss as [|s ss]; [split; [discriminate|intros [C _]; congruence]|].
  destruct (Qeqb_spec (sumF charge (s :: ss)) 0) as [E|E]; [split; [discriminate|intros (_ & C & _); contradiction]|].
  set (f := filter _ _). destruct f as [|a f'] eqn:Ef; [split; [discriminate|intros (_ & _ & -> & C & _); congruence]|].
  destruct (Qeqb_spec (sumF charge (a :: f')) 0) as [E'|E'].
  - split; [discriminate|]. intros (_ & _ & -> & _ & C). contradiction.
  - split; [intros H; injection H as <-; repeat split; try assumption; discriminate|]. intros (_ & _ & -> & _). reflexivity.
Qed.

Lemma waverage_spec w x l : ~ sumF w l == 0 -> waverage w x l * sumF w l == sumF (fun s => w s * x s) l.
Proof. intros H. unfold waverage. field. assumption. Qed.

Lemma barycenter_spec ss thr c : barycenter ss thr = Ok c ->
  cluster_of (filter (fun s => Qle_bool thr (charge s)) ss) c /\ ~ cQ c == 0 /\ ss <> [] /\ ~ sumF charge ss == 0.
Proof.
  unfold barycenter. destruct (threshold_check ss thr) as [l|] eqn:E; [|discriminate]. cbn [rbind]. intros H. injection H as <-.
  apply threshold_check_ok in E. destruct E as (H1 & H2 & -> & H3 & H4). set (l := filter _ ss) in *. unfold cluster_of. cbn [cQ cx cy cvx cvy cn].
  rewrite !waverage_spec by assumption. repeat split; try reflexivity; assumption.
Qed.

(** ** C25 *)
Theorem C25_barycenter ss Qthr : (forall s, In s ss -> Qthr <= charge s -> 0 <= charge s) ->
  let above := filter (fun s => Qle_bool Qthr (charge s)) ss in
  (ss = [] -> barycenter ss Qthr = Err SipmEmptyList) /\
  (ss <> [] -> sumF charge ss == 0 -> barycenter ss Qthr = Err SipmZeroCharge) /\
  (ss <> [] -> ~ sumF charge ss == 0 -> above = [] -> barycenter ss Qthr = Err SipmEmptyListAboveQthr) /\
  (~ sumF charge ss == 0 -> above <> [] -> sumF charge above == 0 -> barycenter ss Qthr = Err SipmZeroChargeAboveQthr) /\
  (~ sumF charge ss == 0 -> ~ sumF charge above == 0 -> exists c, barycenter ss Qthr = Ok c /\
     cluster_of above c /\ 0 < cQ c /\ 0 <= cvx c /\ 0 <= cvy c /\
     (forall lo hi, (forall s, In s above -> lo <= sX s <= hi) -> lo <= cx c <= hi) /\
     (forall lo hi, (forall s, In s above -> lo <= sY s <= hi) -> lo <= cy c <= hi)).
Proof.
  intros Hpos. cbv zeta. set (above := filter _ ss). split; [intros ->; reflexivity|].
  assert (Ne : ~ sumF charge ss == 0 -> ss <> []) by (intros H ->; apply H; reflexivity).
  split; [|split; [|split]].
  - intros H1 H2. unfold barycenter, threshold_check. destruct ss; [easy|]. apply Qeqb_eq in H2. now rewrite H2.
  - intros H1 H2 H3. unfold barycenter, threshold_check. destruct ss as [|s l]; [easy|].
    destruct (Qeqb_spec (sumF charge (s :: l)) 0); [contradiction|]. fold above. now rewrite H3.
  - intros H2 H3 H4. unfold barycenter, threshold_check. destruct ss as [|s l]; [easy|].
    destruct (Qeqb_spec (sumF charge (s :: l)) 0); [contradiction|]. fold above. destruct above as [|a r] eqn:Ea; [easy|].
    apply Qeqb_eq in H4. now rewrite H4.
  - intros H2 H4. assert (Hab : above <> []) by (intros C; rewrite C in H4; apply H4; reflexivity).
    assert (T : threshold_check ss Qthr = Ok above) by (apply threshold_check_ok; auto).
    destruct (barycenter ss Qthr) as [c|e] eqn:Eb; [|exfalso; unfold barycenter in Eb; rewrite T in Eb; discriminate].
    destruct (barycenter_spec _ _ _ Eb) as (Hc & Hq & _). fold above in Hc.
    exists c. split; [reflexivity|]. split; [assumption|]. destruct Hc as (HQ & _ & Hx & Hy & Hvx & Hvy).
    assert (Hp : forall s, In s above -> 0 <= charge s).
    { intros s Hs. unfold above in Hs. apply filter_In in Hs. destruct Hs as [Hs Hle]. apply Hpos; [assumption|now apply Qleb_le]. }
    assert (P : 0 < cQ c). { pose proof (sumF_nonneg charge above Hp). apply Qnot_le_lt. intros C. apply Hq. lra. }
    split; [assumption|].
    assert (V : forall m (f : sensor -> Q), m * cQ c == sumF (fun s => charge s * ((f s) * (f s))) above -> 0 <= m).
    { intros m f Em. assert (0 <= m * cQ c). { rewrite Em. apply sumF_nonneg. intros s Hs. specialize (Hp s Hs). pose proof (Qsq_nonneg (f s)). nra. }
      apply Qnot_lt_le. intros C. nra. }
    split; [exact (V _ _ Hvx)|]. split; [exact (V _ _ Hvy)|].
    assert (B : forall m (f : sensor -> Q), m * cQ c == sumF (fun s => charge s * f s) above ->
              forall lo hi, (forall s, In s above -> lo <= f s <= hi) -> lo <= m <= hi).
    { intros m f Em lo hi Hb.
      assert (L : lo * cQ c <= m * cQ c). { rewrite Em, HQ, <- sumF_scale. apply sumF_le. intros s Hs. specialize (Hp s Hs). specialize (Hb s Hs). nra. }
      assert (H : m * cQ c <= hi * cQ c). { rewrite Em, HQ, <- sumF_scale. apply sumF_le. intros s Hs. specialize (Hp s Hs). specialize (Hb s Hs). nra. }
      split; apply Qnot_lt_le; intros C; nra. }
    split; [exact (B _ _ Hx)|exact (B _ _ Hy)].
Qed.
Example C25_ex : exists c, barycenter [((0, 0), 1); ((10, 0), 3); ((5, 5), 0)] 1 = Ok c /\
  cQ c == 4 /\ cx c == 15 # 2 /\ cy c == 0 /\ cvx c == 75 # 4 /\ cvy c == 0 /\ cn c = 2%nat.
Proof. eexists. split; [vm_compute; reflexivity|]. vm_compute. repeat split; reflexivity. Qed.

(** ** C26 *)
Section C26.
  Variables (all : list ((Q * Q) * bool)) (Qlm lm nlm : Q) (msipm : Z) (consider : bool).

  Lemma hottest_spec ss h : hottest ss = Some h -> In h ss /\ forall s, In s ss -> charge s <= charge h.
  Proof.
    destruct ss as [|s l]; [discriminate|]. cbn [hottest]. intros H. injection H as <-.
    assert (K : forall l s, let r := fold_left (fun best s => if Qltb (charge best) (charge s) then s else best) l s in
               (r = s \/ In r l) /\ charge s <= charge r /\ forall x, In x l -> charge x <= charge r).
    { clear. induction l as [|a l IH]; intros s; cbn [fold_left]; [cbv zeta; split; [now left|]; split; [lra|easy]|].
      cbv zeta. set (b := if Qltb (charge s) (charge a) then a else s).
      assert (Hb : (b = a \/ b = s) /\ charge a <= charge b /\ charge s <= charge b).
      { unfold b. destruct (Qltb_spec (charge s) (charge a)); (split; [auto|lra]). }
      destruct (IH b) as (H1 & H2 & H3). destruct Hb as (Hb & Ha & Hs). split; [|split; [lra|]].
      - destruct H1 as [H1|H1]; [|right; now right]. rewrite H1. destruct Hb as [->| ->]; [right; now left|now left].
      - intros x [<-|Hx]; [lra|auto]. }
    destruct (K l s) as (H1 & H2 & H3). split; [destruct H1 as [->|H1]; [now left|now right]|].
    intros x [<-|Hx]; auto.
  Qed.

  Lemma masked_spec center : masked_near all nlm center (count_masked center nlm all).
  Proof.
    unfold masked_near, count_masked, count. set (p := fun x : (Q * Q) * bool => within nlm (fst x) center && negb (snd x)). exists (filter p all). split; [reflexivity|]. split.
    - intros x Hx. apply filter_In in Hx. destruct Hx as [_ Hx]. apply andb_true_iff in Hx. destruct Hx as [H1 H2].
      apply negb_true_iff in H2. apply reached_iff in H1. auto.
    - exists (filter (fun x => negb (p x)) all). split.
      + clear. induction all as [|a l IH]; cbn [filter]; [reflexivity|]. destruct (p a); cbn [negb app]; [now constructor|].
        rewrite <- Permutation_middle. now constructor.
      + intros x Hx. apply filter_In in Hx. destruct Hx as [_ Hx]. apply negb_true_iff in Hx. unfold p in Hx. apply andb_false_iff in Hx.
        destruct Hx as [H|H]; [right|left; now apply negb_false_iff in H]. intros C. apply reached_iff in C. congruence.
  Qed.

  (** a group of sensors looked at by the algorithm: those near one point, with the number of inactive SiPMs there *)
  Definition looked_at (g : list sensor) (n : Z) : Prop :=
    exists center, (forall s, In s g -> reached nlm (spos s) center) /\
    (consider = false -> n = 0%Z) /\ (consider = true -> exists k, n = Z.of_nat k /\ masked_near all nlm center k) /\
    (lm <= nlm -> exists s, In s g /\ Qlm <= charge s).

  Lemma filter_split_perm {A} (p : A -> bool) l : Permutation (filter p l ++ filter (fun x => negb (p x)) l) l.
  Proof.
    induction l as [|a l IH]; cbn [filter]; [reflexivity|]. destruct (p a); cbn [negb app]; [now constructor|].
    rewrite <- Permutation_middle. now constructor.
  Qed.

  Lemma reached_hottest h ss c : 0 <= lm -> (forall s, In s ss -> 0 <= charge s) -> 
    barycenter (filter (fun s => within lm (spos s) (spos h)) ss) 0 = Ok c -> reached lm (spos h) (cx c, cy c).
  Proof.
    intros Hlm Hq Eb. destruct (barycenter_spec _ _ _ Eb) as (Hc & Hn & _ & _).
    set (g := filter (fun s => within lm (spos s) (spos h)) ss) in *.
    assert (Hg : forall s, In s g -> 0 <= charge s /\ distance2 (spos s) (spos h) <= lm * lm).
    { intros s Hs. unfold g in Hs. apply filter_In in Hs. destruct Hs as [Hs Hw]. apply reached_iff in Hw. split; [auto|apply Hw]. }
    rewrite filter_all in Hc by (intros s Hs; apply Qleb_le; now apply Hg). clearbody g.
    destruct Hc as (HQ & _ & Hx & Hy & _). split; [assumption|].
    change (distance2 (spos h) (cx c, cy c)) with ((sX h - cx c) * (sX h - cx c) + (sY h - cy c) * (sY h - cy c)).
    set (W := cQ c) in *. set (A := cx c - sX h). set (B := cy c - sY h).
    assert (HW : 0 < W). { pose proof (sumF_nonneg charge g (fun s Hs => proj1 (Hg s Hs))). apply Qnot_le_lt. intros C. apply Hn. lra. }
    assert (EA : sumF (fun s => charge s * (sX s - sX h)) g == A * W).
    { rewrite sumF_ext with (g := fun s => charge s * sX s + (- sX h) * charge s) by (intros; ring). rewrite sumF_plus, sumF_scale, <- Hx, <- HQ. unfold A. ring. }
    assert (EB : sumF (fun s => charge s * (sY s - sY h)) g == B * W).
    { rewrite sumF_ext with (g := fun s => charge s * sY s + (- sY h) * charge s) by (intros; ring). rewrite sumF_plus, sumF_scale, <- Hy, <- HQ. unfold B. ring. }
    assert (J : 0 <= sumF (fun s => charge s * ((sX s - sX h - A) * (sX s - sX h - A) + (sY s - sY h - B) * (sY s - sY h - B))) g).
    { apply sumF_nonneg. intros s Hs. destruct (Hg s Hs) as [H1 _]. pose proof (Qsq_nonneg (sX s - sX h - A)). pose proof (Qsq_nonneg (sY s - sY h - B)). nra. }
    rewrite sumF_ext with (g := fun s => charge s * ((sX s - sX h) * (sX s - sX h) + (sY s - sY h) * (sY s - sY h)) +
       ((- (2) * A) * (charge s * (sX s - sX h)) + ((- (2) * B) * (charge s * (sY s - sY h)) + (A * A + B * B) * charge s))) in J by (intros; ring).
    rewrite !sumF_plus, !sumF_scale, EA, EB, <- HQ in J.
    assert (U : sumF (fun s => charge s * ((sX s - sX h) * (sX s - sX h) + (sY s - sY h) * (sY s - sY h))) g <= lm * lm * W).
    { rewrite HQ, <- sumF_scale. apply sumF_le. intros s Hs. destruct (Hg s Hs) as [H1 H2]. change (distance2 (spos s) (spos h)) with ((sX s - sX h) * (sX s - sX h) + (sY s - sY h) * (sY s - sY h)) in H2.
      set (D := (sX s - sX h) * (sX s - sX h) + (sY s - sY h) * (sY s - sY h)) in *. set (L2 := lm * lm) in *. nra. }
    setoid_replace ((sX h - cx c) * (sX h - cx c) + (sY h - cy c) * (sY h - cy c)) with (A * A + B * B) by (unfold A, B; ring).
    apply Qnot_lt_le. intros C. nra.
  Qed.

  Lemma loop_spec fuel : 0 <= lm -> forall ss c cs,
    (forall s, In s ss -> 0 <= charge s) ->
    corona_loop all Qlm lm nlm msipm consider fuel ss c = Some (Ok cs) ->
    exists new groups small left,
      cs = c ++ new /\ cs <> [] /\
      Permutation (concat groups ++ concat small ++ left) ss /\
      Forall2 cluster_of groups new /\
      Forall (fun g => exists n, looked_at g n /\ (msipm <= Z.of_nat (length g) + n)%Z) groups /\
      Forall (fun g => exists n, looked_at g n /\ (Z.of_nat (length g) + n < msipm)%Z) small /\
      (forall s, In s left -> charge s < Qlm).
  Proof.
    intros Hlm. induction fuel as [|fuel IH]; intros ss c cs Hq; cbn [corona_loop]; [discriminate|].
    assert (Fin : forall l, Some (finish c) = Some (Ok cs) -> (forall s, In s l -> charge s < Qlm) -> l = ss ->
      exists new groups small left, cs = c ++ new /\ cs <> [] /\ Permutation (concat groups ++ concat small ++ left) ss /\ Forall2 cluster_of groups new /\
      Forall (fun g => exists n, looked_at g n /\ (msipm <= Z.of_nat (length g) + n)%Z) groups /\
      Forall (fun g => exists n, looked_at g n /\ (Z.of_nat (length g) + n < msipm)%Z) small /\ (forall s, In s left -> charge s < Qlm)).
    { intros l E Hl ->. exists [], [], [], ss. unfold finish in E. destruct c as [|k c]; [discriminate|]. injection E as <-.
      split; [symmetry; apply app_nil_r|]. split; [discriminate|]. split; [reflexivity|]. repeat split; try constructor. assumption. }
    destruct (hottest ss) as [h|] eqn:Eh.
    2:{ destruct ss as [|s l]; [|discriminate]. intros E. now apply (Fin []). }
    destruct (hottest_spec _ _ Eh) as [Ih Hmax].
    destruct (Qltb_spec (charge h) Qlm) as [C|C]; [intros E; apply (Fin ss E); [|reflexivity]; intros s Hs; specialize (Hmax s Hs); lra|].
    destruct (barycenter (filter (fun s => within lm (spos s) (spos h)) ss) 0) as [c0|e] eqn:Eb; [|discriminate].
    set (center := (cx c0, cy c0)). set (inside := filter _ ss). set (outside := filter (fun s => negb _) ss).
    assert (P : Permutation (inside ++ outside) ss) by apply (filter_split_perm (fun s => within nlm (spos s) center)).
    assert (Hin : forall s, In s inside -> 0 <= charge s /\ reached nlm (spos s) center).
    { intros s Hs. apply filter_In in Hs. destruct Hs as [Hs Hw]. apply reached_iff in Hw. auto. }
    assert (Hout : forall s, In s outside -> 0 <= charge s) by (intros s Hs; apply filter_In in Hs; apply Hq, Hs).
    assert (LA : looked_at inside (nmasked all nlm consider center)).
    { exists center. split; [apply Hin|]. unfold nmasked. split; [intros ->; reflexivity|]. split.
      - intros ->. eexists. split; [reflexivity|]. apply masked_spec.
      - intros Hle. exists h. split; [|assumption]. apply filter_In. split; [assumption|]. apply reached_iff.
        destruct (reached_hottest h ss c0 Hlm Hq Eb) as [H1 H2]. split; [lra|]. unfold center. nra. }
    destruct (Z.leb_spec (msipm - nmasked all nlm consider center) (Z.of_nat (length inside))) as [Hm|Hm].
    - destruct (barycenter inside 0) as [k|e] eqn:Ek; [|discriminate]. intros E. specialize (IH _ _ _ Hout E).
      destruct IH as (new & groups & small & left & -> & Hne & Hp & F & G & S & L).
      exists (k :: new), (inside :: groups), small, left. split; [now rewrite <- app_assoc|]. split; [assumption|]. split.
      + cbn [concat]. rewrite <- P, <- Hp, <- app_assoc. reflexivity.
      + split; [|split; [|split; assumption]].
        * constructor; [|assumption]. destruct (barycenter_spec _ _ _ Ek) as (Hk & _). rewrite filter_all in Hk; [assumption|].
          intros s Hs. apply Qleb_le. now apply Hin.
        * constructor; [|assumption]. exists (nmasked all nlm consider center). split; [assumption|lia].
    - intros E. specialize (IH _ _ _ Hout E). destruct IH as (new & groups & small & left & -> & Hne & Hp & F & G & S & L).
      exists new, groups, (inside :: small), left. do 2 (split; [reflexivity || assumption|]). split.
      + cbn [concat]. rewrite <- P, <- Hp. rewrite <- !app_assoc, !app_assoc. apply Permutation_app_tail. apply Permutation_app_tail. apply Permutation_app_comm.
      + split; [assumption|]. split; [assumption|]. split; [|assumption]. constructor; [|assumption]. exists (nmasked all nlm consider center). split; [assumption|lia].
  Qed.

  Lemma loop_mono fuel : forall k ss c r, corona_loop all Qlm lm nlm msipm consider fuel ss c = Some r ->
    corona_loop all Qlm lm nlm msipm consider (fuel + k) ss c = Some r.
  Proof.
    induction fuel as [|fuel IH]; intros k ss c r; cbn [corona_loop Nat.add]; [discriminate|].
    destruct (hottest ss) as [h|]; [|trivial]. destruct (Qltb (charge h) Qlm); [trivial|].
    destruct (barycenter _ 0) as [c0|e]; [|trivial]. cbv zeta. destruct (_ <=? _)%Z; [|apply IH].
    destruct (barycenter _ 0) as [c1|e]; [apply IH|trivial].
  Qed.

  Lemma loop_terminates fuel : 0 <= lm -> lm <= nlm -> forall ss c, (forall s, In s ss -> 0 <= charge s) -> (length ss < fuel)%nat ->
    exists r, corona_loop all Qlm lm nlm msipm consider fuel ss c = Some r /\
              (0 < Qlm -> (exists cs, r = Ok cs) \/ r = Err ClusterEmptyList).
  Proof.
    intros Hlm Hle. induction fuel as [|fuel IH]; intros ss c Hq Hf; [lia|]. cbn [corona_loop].
    assert (Fin : (exists cs, finish c = Ok cs) \/ finish c = Err ClusterEmptyList) by (destruct c; cbn [finish]; [now right|left; eauto]).
    destruct (hottest ss) as [h|] eqn:Eh; [|eauto].
    destruct (hottest_spec _ _ Eh) as [Ih Hmax]. destruct (Qltb_spec (charge h) Qlm) as [C|C]; [eauto|].
    assert (Bok : forall (p : sensor -> bool), p h = true -> 0 < Qlm -> exists k, barycenter (filter p ss) 0 = Ok k).
    { intros p Hp HQ. assert (I : In h (filter p ss)) by now apply filter_In.
      assert (Pos : 0 < sumF charge (filter p ss)).
      { apply Qlt_le_trans with (charge h); [lra|]. apply sumF_ge_one; [|assumption]. intros s Hs. apply filter_In in Hs. apply Hq, Hs. }
      unfold barycenter. destruct (threshold_check (filter p ss) 0) as [l|e] eqn:E; [cbn; eauto|]. exfalso.
      assert (T : threshold_check (filter p ss) 0 = Ok (filter p ss)); [|congruence]. apply threshold_check_ok.
      assert (N : filter p ss <> []) by (intros D; rewrite D in I; easy).
      rewrite (filter_all (fun s => Qle_bool 0 (charge s)) (filter p ss)) by (intros s Hs; apply Qleb_le; apply filter_In in Hs; apply Hq, Hs). repeat split; try assumption; try reflexivity; lra. }
    assert (Wh : within lm (spos h) (spos h) = true).
    { apply reached_iff. split; [assumption|]. unfold distance2. setoid_replace ((fst (spos h) - fst (spos h)) * (fst (spos h) - fst (spos h)) + (snd (spos h) - snd (spos h)) * (snd (spos h) - snd (spos h))) with 0 by ring. nra. }
    destruct (barycenter (filter (fun s => within lm (spos s) (spos h)) ss) 0) as [c0|e] eqn:Eb.
    2:{ eexists. split; [reflexivity|]. intros HQ. destruct (Bok (fun s => within lm (spos s) (spos h)) Wh HQ) as [k Ek]. congruence. }
    cbv zeta. destruct (reached_hottest h ss c0 Hlm Hq Eb) as [R1 R2]. set (center := (cx c0, cy c0)) in *.
    assert (Wn : within nlm (spos h) center = true) by (apply reached_iff; split; [lra|nra]).
    set (p := fun s => within nlm (spos s) center).
    assert (Lo : (length (filter (fun s => negb (p s)) ss) < length ss)%nat).
    { pose proof (Permutation_length (filter_split_perm p ss)) as L. rewrite app_length in L.
      assert (In h (filter p ss)) as I by now apply filter_In. assert (length (filter p ss) <> 0)%nat by (destruct (filter p ss); [easy|discriminate]). lia. }
    assert (Hout : forall s, In s (filter (fun s => negb (p s)) ss) -> 0 <= charge s) by (intros s Hs; apply filter_In in Hs; apply Hq, Hs).
    destruct (_ <=? _)%Z; [|apply IH; [exact Hout|eapply Nat.lt_le_trans; [exact Lo|lia]]].
    change (barycenter (filter (fun s => within nlm (spos s) center) ss) 0) with (barycenter (filter p ss) 0).
    destruct (barycenter (filter p ss) 0) as [k|e] eqn:Ek; [apply IH; [exact Hout|eapply Nat.lt_le_trans; [exact Lo|lia]]|].
    eexists. split; [reflexivity|]. intros HQ. destruct (Bok p Wn HQ) as [k Ek']. congruence.
  Qed.
End C26.

(** what corona returns *)
Theorem C26_clusters all Qthr Qlm lm nlm msipm consider fuel ss cs :
  0 <= Qthr -> corona all Qlm lm nlm msipm consider fuel ss Qthr = Some (Ok cs) ->
  exists groups small left,
    cs <> [] /\
    Permutation (concat groups ++ concat small ++ left) (filter (fun s => Qle_bool Qthr (charge s)) ss) /\
    Forall2 cluster_of groups cs /\
    Forall (fun g => exists n, looked_at all Qlm lm nlm consider g n /\ (msipm <= Z.of_nat (length g) + n)%Z) groups /\
    Forall (fun g => exists n, looked_at all Qlm lm nlm consider g n /\ (Z.of_nat (length g) + n < msipm)%Z) small /\
    (forall s, In s left -> charge s < Qlm).
Proof.
  intros Ht. unfold corona. destruct (Qleb_spec 0 lm) as [Hlm|]; [|discriminate]. destruct (Qleb_spec 0 nlm) as [Hn|]; [|discriminate]. cbn [andb negb].
  destruct (threshold_check ss Qthr) as [l|] eqn:E; [|discriminate]. apply threshold_check_ok in E. destruct E as (_ & _ & -> & _).
  intros H. apply loop_spec in H; [|assumption|].
  - destruct H as (new & groups & small & left & -> & H). exists groups, small, left. exact H.
  - intros s Hs. apply filter_In in Hs. destruct Hs as [_ Hs]. apply Qleb_le in Hs. lra.
Qed.

(** so the clusters do not carry more charge than the sensors *)
Theorem C26_charge_bounded all Qthr Qlm lm nlm msipm consider fuel ss cs :
  0 <= Qthr -> corona all Qlm lm nlm msipm consider fuel ss Qthr = Some (Ok cs) ->
  sumF cQ cs <= sumF charge (filter (fun s => Qle_bool Qthr (charge s)) ss).
Proof.
  intros Ht H. apply C26_clusters in H; [|assumption]. destruct H as (groups & small & left & _ & P & F & _).
  rewrite <- (sumF_perm charge _ _ P), sumF_app.
  assert (E : sumF cQ cs == sumF charge (concat groups)).
  { clear P. induction F as [|g c groups cs Hc F IH]; [reflexivity|]. cbn [concat]. rewrite sumF_app, sumF_cons, IH. destruct Hc as [-> _]. reflexivity. }
  assert (0 <= sumF charge (concat small ++ left)); [|lra]. apply sumF_nonneg. intros s Hs.
  assert (I : In s (filter (fun s => Qle_bool Qthr (charge s)) ss)) by (eapply Permutation_in; [exact P|]; apply in_app_iff; now right).
  apply filter_In in I. destruct I as [_ I]. apply Qleb_le in I. lra.
Qed.

(** with lm_radius <= new_lm_radius the algorithm always finishes *)
Lemma filter_length_le' {A} (p : A -> bool) l : (length (filter p l) <= length l)%nat.
Proof. induction l as [|a l IH]; cbn; [lia|]. destruct (p a); cbn; lia. Qed.

Theorem C26_terminates all Qthr Qlm lm nlm msipm consider ss :
  0 <= Qthr -> lm <= nlm ->
  exists r, (forall fuel, (length ss < fuel)%nat -> corona all Qlm lm nlm msipm consider fuel ss Qthr = Some r) /\
  (0 <= lm -> 0 < Qlm -> forall l, threshold_check ss Qthr = Ok l -> (exists cs, r = Ok cs) \/ r = Err ClusterEmptyList).
Proof.
  intros Ht Hle. unfold corona. destruct (Qleb_spec 0 lm) as [Hlm|Hlm]; cbn [andb negb]; [|eexists; split; [reflexivity|]; intros; lra].
  destruct (Qleb_spec 0 nlm) as [Hn|Hn]; cbn [negb]; [|eexists; split; [reflexivity|]; intros; lra].
  destruct (threshold_check ss Qthr) as [l|] eqn:E; [|eexists; split; [reflexivity|]; intros; discriminate].
  apply threshold_check_ok in E. destruct E as (_ & _ & -> & _). set (l := filter _ ss).
  destruct (loop_terminates all Qlm lm nlm msipm consider (S (length l)) Hlm Hle l []) as (r & Er & Hr); [|lia|].
  { intros s Hs. apply filter_In in Hs. destruct Hs as [_ Hs]. apply Qleb_le in Hs. lra. }
  exists r. split; [|auto]. intros fuel Hf. assert (length l <= length ss)%nat by apply filter_length_le'.
  replace fuel with (S (length l) + (fuel - S (length l)))%nat by lia. now apply loop_mono.
Qed.

Definition six : list sensor := [((0, 0), 10); ((10, 0), 6); ((0, 10), 6); ((100, 0), 9); ((200, 0), 8); ((210, 0), 8)].
Example C26_ex : exists a b, corona [] 5 0 15 2 false 10 six 1 = Some (Ok [a; b]) /\ cQ a == 22 /\ cn a = 3%nat /\ cQ b == 16 /\ cn b = 2%nat.
Proof. eexists _, _. split; [vm_compute; reflexivity|]. vm_compute. repeat split; reflexivity. Qed.

(** with a larger lm_radius it may run forever *)
Theorem C26_nontermination_refuted : exists ss lm nlm,
  0 <= lm /\ 0 <= nlm /\ (forall s, In s ss -> 0 < charge s) /\
  forall fuel, corona [] 5 lm nlm 1 false fuel ss 1 = None.
Proof.
  exists [((0, 0), 10); ((10, 0), 10)], 15, 1. split; [lra|]. split; [lra|]. split.
  - intros s [<-|[<-|[]]]; reflexivity.
  - intros fuel. unfold corona. cbn [andb negb Qle_bool].
    change (threshold_check [((0, 0), 10); ((10, 0), 10)] 1) with (Ok [((0, 0), 10); ((10, 0), 10)]). cbv beta iota.
    change (negb (Qle_bool 0 15 && Qle_bool 0 1)) with false. cbv iota.
    induction fuel as [|fuel IH]; [reflexivity|]. exact IH.
Qed.

(** corona follows its documented steps *)
Lemma parts_filter {A} (p : A -> bool) (P : A -> Prop) l : (forall x, p x = true <-> P x) -> parts P l (filter p l) (filter (fun x => negb (p x)) l).
Proof.
  intros H. split; [apply filter_split_perm|]. split; intros x Hx; apply filter_In in Hx; destruct Hx as [_ Hx].
  - now apply H.
  - intros C. apply H in C. rewrite C in Hx. discriminate.
Qed.

Lemma loop_steps all Qlm lm nlm msipm consider fuel : forall ss c cs,
  (forall s, In s ss -> 0 <= charge s) ->
  corona_loop all Qlm lm nlm msipm consider fuel ss c = Some (Ok cs) ->
  exists new, cs = c ++ new /\ corona_steps all Qlm lm nlm msipm consider ss new.
Proof.
  induction fuel as [|fuel IH]; intros ss c cs Hq; cbn [corona_loop]; [discriminate|].
  assert (Fin : (forall s, In s ss -> charge s < Qlm) -> Some (finish c) = Some (Ok cs) -> exists new, cs = c ++ new /\ corona_steps all Qlm lm nlm msipm consider ss new).
  { intros Hs E. exists []. rewrite app_nil_r. unfold finish in E. destruct c; [discriminate|]. injection E as <-. split; [reflexivity|now constructor]. }
  destruct (hottest ss) as [h|] eqn:Eh; [|destruct ss as [|? ?]; [|discriminate]; apply Fin; easy].
  destruct (hottest_spec _ _ Eh) as [Ih Hmax].
  destruct (Qltb_spec (charge h) Qlm) as [C|C]; [apply Fin; intros s Hs; specialize (Hmax s Hs); lra|].
  destruct (barycenter (filter (fun s => within lm (spos s) (spos h)) ss) 0) as [c0|e] eqn:Eb; [|discriminate].
  assert (Hf : forall p : sensor -> bool, forall k, barycenter (filter p ss) 0 = Ok k -> cluster_of (filter p ss) k).
  { intros p k Ek. destruct (barycenter_spec _ _ _ Ek) as (Hk & _). rewrite filter_all in Hk; [assumption|].
    intros s Hs. apply filter_In in Hs. apply Qleb_le. apply Hq, Hs. }
  cbv zeta. set (center := (cx c0, cy c0)). set (p := fun s => within nlm (spos s) center).
  change (filter (fun s => within nlm (spos s) center) ss) with (filter p ss).
  change (filter (fun s => negb (within nlm (spos s) center)) ss) with (filter (fun s => negb (p s)) ss).
  assert (Hout : forall s, In s (filter (fun s => negb (p s)) ss) -> 0 <= charge s) by (intros s Hs; apply filter_In in Hs; apply Hq, Hs).
  assert (P0 : parts (fun s => reached lm (spos s) (spos h)) ss (filter (fun s => within lm (spos s) (spos h)) ss) (filter (fun s => negb (within lm (spos s) (spos h))) ss))
    by (apply (parts_filter (fun s => within lm (spos s) (spos h))); intros; apply reached_iff).
  assert (P1 : parts (fun s => reached nlm (spos s) center) ss (filter p ss) (filter (fun s => negb (p s)) ss))
    by (apply parts_filter; intros; apply reached_iff).
  pose proof (masked_spec all nlm center) as M. specialize (Hf _ c0 Eb) as H0. unfold nmasked.
  destruct (Z.leb_spec (msipm - (if consider then Z.of_nat (count_masked center nlm all) else 0)) (Z.of_nat (length (filter p ss)))) as [Hm|Hm].
  - destruct (barycenter (filter p ss) 0) as [k|e] eqn:Ek; [|discriminate]. intros E. destruct (IH _ _ _ Hout E) as (new & -> & St).
    exists (k :: new). split; [now rewrite <- app_assoc|]. eapply steps_cluster; try eassumption; [lia|now apply Hf].
  - intros E. destruct (IH _ _ _ Hout E) as (new & -> & St). exists new. split; [reflexivity|]. eapply steps_discard; try eassumption. lia.
Qed.

Theorem C26_documented_steps all Qthr Qlm lm nlm msipm consider fuel ss cs :
  0 <= Qthr -> corona all Qlm lm nlm msipm consider fuel ss Qthr = Some (Ok cs) ->
  cs <> [] /\ corona_steps all Qlm lm nlm msipm consider (filter (fun s => Qle_bool Qthr (charge s)) ss) cs.
Proof.
  intros Ht H. pose proof (C26_clusters _ _ _ _ _ _ _ _ _ _ Ht H) as (_ & _ & _ & Hne & _). split; [assumption|]. revert H. unfold corona.
  destruct (negb _); [discriminate|].
  destruct (threshold_check ss Qthr) as [l|] eqn:E; [|discriminate]. apply threshold_check_ok in E. destruct E as (_ & _ & -> & _).
  intros H. apply loop_steps in H.
  - destruct H as (new & -> & H). exact H.
  - intros s Hs. apply filter_In in Hs. destruct Hs as [_ Hs]. apply Qleb_le in Hs. lra.
Qed.

Print Assumptions C26_documented_steps.
Print Assumptions C25_barycenter.
Print Assumptions C26_clusters.
Print Assumptions C26_charge_bounded.
Print Assumptions C26_terminates.
Print Assumptions C26_nontermination_refuted.
