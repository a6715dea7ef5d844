(** Lemmas for C23: dropping end-point voxels *)
From Verif Require Import Base Arrays PaolinaModel PaolinaSpec PaolinaTracks.
Local Open Scope Q_scope.

Lemma Qmin_either a b : Qmin a b = a \/ Qmin a b = b.
Proof. unfold Qmin, GenericMinMax.gmin. destruct (a ?= b); auto. Qed.
Lemma fold_min_in l a : In (fold_left Qmin l a) (a :: l).
Proof.
  revert a; induction l as [|b l IH]; intros a; cbn [fold_left]; [now left|]. destruct (IH (Qmin a b)) as [E|E]; [|right; now right].
  rewrite <- E. destruct (Qmin_either a b) as [-> | ->]; [now left|right; now left].
Qed.
Lemma min_of_in l m : min_of l = Some m -> In m l.
Proof. destruct l as [|a l]; [discriminate|]. cbn. intros H. injection H as <-. apply fold_min_in. Qed.
Lemma min_of_some l x : In x l -> exists m, min_of l = Some m.
Proof. destruct l as [|a l]; [easy|]. cbn. eauto. Qed.

Lemma isclose_refl m : 0 <= m -> isclose_sqrt m m = true.
Proof. intros H. unfold isclose_sqrt. apply orb_true_iff. left. apply Qleb_le. unfold atol, rtol1. lra. Qed.
Lemma d3_nonneg p q : 0 <= d3 p q.
Proof.
  destruct p as [[a b] c], q as [[a' b'] c']. unfold d3, sq. pose proof (Qsq_nonneg (a - a')). pose proof (Qsq_nonneg (b - b')). pose proof (Qsq_nonneg (c - c')). lra.
Qed.

Lemma same_hit_refl l : Forall2 same_hit_position l l.
Proof. induction l; constructor; [repeat split|assumption]. Qed.
Lemma same_place_refl v : same_place v v.
Proof. unfold same_place. do 7 (split; [reflexivity|]). apply same_hit_refl. Qed.
Lemma same_hit_trans l m n : Forall2 same_hit_position l m -> Forall2 same_hit_position m n -> Forall2 same_hit_position l n.
Proof.
  intros H. revert n; induction H as [|a b l m H1 F IH]; intros n Hn; inversion Hn; subst; constructor; [|auto].
  unfold same_hit_position in *. intuition congruence.
Qed.
Lemma same_place_trans u v w : same_place u v -> same_place v w -> same_place u w.
Proof.
  unfold same_place. intros (A1 & A2 & A3 & A4 & A5 & A6 & A7 & A8) (B1 & B2 & B3 & B4 & B5 & B6 & B7 & B8).
  do 7 (split; [congruence|]). eapply same_hit_trans; eassumption.
Qed.

(** sum of a map with energies scaled on a selection *)
Lemma scaled_sum (A : Type) (e : A -> Q) (p : A -> bool) (x : Q) l : ~ sumF e (filter p l) == 0 ->
  sumF (fun a => if p a then e a * (1 + x / sumF e (filter p l)) else e a) l == sumF e l + x.
Proof.
  intros H. set (T := sumF e (filter p l)) in *.
  transitivity (sumF e l + sumF (fun a => if p a then e a * (x / T) else 0) l).
  - rewrite <- sumF_plus. apply sumF_ext. intros a _. destruct (p a); ring.
  - rewrite <- sumF_filter_if, sumF_scale_r. fold T. field. assumption.
Qed.

Definition good (with_hits : bool) (v : voxel) : Prop := if with_hits then filled v else bare v.
Lemma good_pos b v : good b v -> 0 < vE v.
Proof.
  destruct b; cbn; [|now intros [_ H]]. intros (Hne & Hp & ->). unfold hits_energy. destruct (vhits v) as [|h l]; [easy|].
  rewrite sumF_cons. pose proof (Hp h (or_introl eq_refl)). assert (0 <= sumF pe l); [|lra]. apply sumF_nonneg. intros x Hx. apply Qlt_le_weak, Hp. now right.
Qed.

Lemma sumF_pos {A} (f : A -> Q) l x : (forall a, In a l -> 0 < f a) -> In x l -> 0 < sumF f l.
Proof.
  intros H Hx. assert (f x <= sumF f l) by (apply sumF_ge_one; [intros a Ha; apply Qlt_le_weak; auto|assumption]).
  specialize (H x Hx). lra.
Qed.

Lemma F2_map {A B} (R : A -> B -> Prop) (g : A -> B) l : (forall v, R v (g v)) -> Forall2 R l (map g l).
Proof. intros H. induction l as [|v l IH]; cbn [map]; [apply Forall2_nil|apply Forall2_cons; [apply H|exact IH]]. Qed.

Lemma drop_voxel_spec b cur the : good b the -> (forall v, In v cur -> good b v) ->
  (exists u, In u cur /\ adjacent CORNER the u) ->
  exists cur', drop_voxel cur the = Ok cur' /\ Forall2 same_place cur cur' /\ (forall v, In v cur' -> good b v) /\
  voxels_energy cur' == voxels_energy cur + vE the.
Proof.
  intros Ht Hc (u & Hu & Au). pose proof (good_pos _ _ Ht) as Pt. unfold drop_voxel.
  set (nb := fun v => neighbours CORNER the v). assert (Nu : nb u = true) by now apply neighbours_iff.
  assert (Iu : In u (filter nb cur)) by now apply filter_In.
  destruct b.
  - (* voxels with hits *)
    destruct Ht as (Hne & Hp & HE). destruct (vhits the) as [|h0 hs] eqn:Eh; [easy|]. rewrite <- Eh in *.
    assert (Hs : 0 < sumF pe (vhits the)) by (apply sumF_pos with h0; [assumption|rewrite Eh; now left]).
    destruct (Qeqb_spec (sumF pe (vhits the)) 0) as [C0|_]; [lra|].
    set (bary := (wmean px (vhits the), wmean py (vhits the), wmean pz (vhits the))).
    assert (NE : existsb (fun v => nb v && match vhits v with [] => true | _ => false end) cur = false).
    { apply not_true_is_false. intros C. apply existsb_exists in C. destruct C as (v & Hv & C). destruct (Hc v Hv) as (Hvne & _).
      apply andb_true_iff in C. destruct C as [_ C]. destruct (vhits v); [easy|discriminate]. }
    rewrite NE.
    set (ds := flat_map (fun v => map (fun h => d3 (hpos h) bary) (vhits v)) (filter nb cur)).
    assert (exists m, min_of ds = Some m) as [m Em].
    { destruct (Hc u Hu) as (Hun & _). destruct (vhits u) as [|h1 r] eqn:Er; [easy|]. apply (min_of_some ds (d3 (hpos h1) bary)).
      unfold ds. apply in_flat_map. exists u. split; [assumption|]. apply in_map_iff. exists h1. split; [reflexivity|]. rewrite Er. now left. }
    rewrite Em. set (sel := fun h => isclose_sqrt (d3 (hpos h) bary) m).
    set (chosen := flat_map (fun v => filter sel (vhits v)) (filter nb cur)).
    assert (T : 0 < sumF pe chosen).
    { apply min_of_in in Em. unfold ds in Em. apply in_flat_map in Em. destruct Em as (v & Hv & Em). apply in_map_iff in Em. destruct Em as (h & Eh' & Hh).
      apply sumF_pos with h.
      - intros x Hx. unfold chosen in Hx. apply in_flat_map in Hx. destruct Hx as (w & Hw & Hx). apply filter_In in Hx. apply filter_In in Hw.
        destruct (Hc w) as (_ & P & _); [apply Hw|]. apply P, Hx.
      - unfold chosen. apply in_flat_map. exists v. split; [assumption|]. apply filter_In. split; [assumption|]. unfold sel. rewrite Eh'.
        apply isclose_refl. rewrite <- Eh'. apply d3_nonneg. }
    set (total := sumF pe chosen) in *. destruct (Qeqb_spec total 0) as [C1|C1]; [lra|].
    set (share := fun h => if sel h then set_pe (pe h * (1 + vE the / total)) h else h).
    assert (F0 : 0 < vE the / total) by (apply Qlt_shift_div_l; lra).
    eexists. split; [reflexivity|]. rewrite map_map.
    set (g := fun v => set_E (sumF pe (vhits (if nb v then set_hits (map share (vhits v)) v else v))) (if nb v then set_hits (map share (vhits v)) v else v)).
    assert (Hsh : forall l, Forall2 same_hit_position l (map share l)).
    { induction l as [|h l IH]; constructor; [|assumption]. unfold share. destruct (sel h); repeat split. }
    assert (Hpos : forall h, 0 < pe h -> 0 < pe (share h)).
    { intros h H. unfold share. destruct (sel h); [|assumption]. cbn [pe set_pe]. nra. }
    assert (Hg : forall v, vhits (g v) = (if nb v then map share (vhits v) else vhits v) /\ vE (g v) = sumF pe (vhits (g v)) /\ same_place v (g v)).
    { intros v. unfold g. destruct (nb v); cbn; (split; [reflexivity|]); (split; [reflexivity|]); unfold same_place; cbn; do 7 (split; [reflexivity|]); [apply Hsh|apply same_hit_refl]. }
    change (Forall2 same_place cur (map g cur) /\ (forall v, In v (map g cur) -> filled v) /\ voxels_energy (map g cur) == voxels_energy cur + vE the).
    split; [|split].
    + assert (Hsp : forall v, same_place v (g v)) by apply Hg. exact (F2_map _ g cur Hsp).
    + intros v Hv. apply in_map_iff in Hv. destruct Hv as (w & <- & Hw). destruct (Hc w Hw) as (W1 & W2 & W3). destruct (Hg w) as (G1 & G2 & _).
      split; [|split].
      * rewrite G1. destruct (nb w); [|assumption]. destruct (vhits w); [easy|discriminate].
      * rewrite G1. destruct (nb w); [|assumption]. intros h Hh. apply in_map_iff in Hh. destruct Hh as (h' & <- & Hh'). auto.
      * rewrite G2. reflexivity.
    + unfold voxels_energy. rewrite sumF_map.
      transitivity (sumF (fun v => if nb v then sumF (fun h => if sel h then pe h * (1 + vE the / total) else pe h) (vhits v) else sumF pe (vhits v)) cur).
      { apply sumF_ext. intros v _. destruct (Hg v) as (G1 & G2 & _). rewrite G2, G1. destruct (nb v); [|reflexivity].
        rewrite sumF_map. apply sumF_ext. intros h _. unfold share. destruct (sel h); reflexivity. }
      transitivity (sumF (fun v => sumF pe (vhits v) + (if nb v then sumF pe (filter sel (vhits v)) * (vE the / total) else 0)) cur).
      { apply sumF_ext. intros v _. destruct (nb v); [|ring]. rewrite <- sumF_scale_r, sumF_filter_if, <- sumF_plus. apply sumF_ext.
        intros h _. destruct (sel h); ring. }
      rewrite sumF_plus. rewrite <- sumF_filter_if, sumF_scale_r.
      assert (E1 : sumF (fun v => sumF pe (filter sel (vhits v))) (filter nb cur) == total).
      { unfold total, chosen. rewrite sumF_flat_map. reflexivity. }
      rewrite E1. assert (E2 : sumF vE cur == sumF (fun v => sumF pe (vhits v)) cur).
      { apply sumF_ext. intros v Hv. destruct (Hc v Hv) as (_ & _ & W). exact W. }
      rewrite E2. field. assumption.
  - (* voxels without hits *)
    destruct Ht as (Hn & _). rewrite Hn.
    set (ds := map (fun v => d3 (vpos the) (vpos v)) (filter nb cur)).
    assert (exists m, min_of ds = Some m) as [m Em].
    { apply (min_of_some ds (d3 (vpos the) (vpos u))). unfold ds. apply in_map_iff. exists u. auto. }
    rewrite Em. set (sel := fun v => nb v && isclose_sqrt (d3 (vpos the) (vpos v)) m).
    assert (T : 0 < sumF vE (filter sel cur)).
    { apply min_of_in in Em. unfold ds in Em. apply in_map_iff in Em. destruct Em as (v & Eh' & Hv). apply filter_In in Hv. destruct Hv as [Hv Nv].
      apply sumF_pos with v.
      - intros x Hx. apply filter_In in Hx. apply (good_pos false). apply Hc, Hx.
      - apply filter_In. split; [assumption|]. unfold sel. rewrite Nv. cbn [andb]. rewrite Eh'. apply isclose_refl. rewrite <- Eh'. apply d3_nonneg. }
    set (total := sumF vE (filter sel cur)) in *. destruct (Qeqb_spec total 0) as [C1|C1]; [lra|].
    assert (F0 : 0 < vE the / total) by (apply Qlt_shift_div_l; lra).
    eexists. split; [reflexivity|].
    set (g := fun v => if sel v then set_E (vE v + vE the / total * vE v) v else v).
    split; [|split].
    + assert (Hg : forall v, same_place v (g v)).
      { intros v. unfold g. destruct (sel v); [|apply same_place_refl]. unfold same_place. cbn. do 7 (split; [reflexivity|]). apply same_hit_refl. }
      exact (F2_map _ g cur Hg).
    + intros v Hv. apply in_map_iff in Hv. destruct Hv as (w & <- & Hw). destruct (Hc w Hw) as (W1 & W2). unfold g.
      fold (sel w). destruct (sel w); [|split; assumption]. split; [exact W1|]. change (0 < vE w + vE the / total * vE w). nra.
    + unfold voxels_energy. rewrite sumF_map.
      rewrite sumF_ext with (g := fun v => if sel v then vE v * (1 + vE the / total) else vE v).
      * apply scaled_sum. exact C1.
      * intros v _. fold (sel v). destruct (sel v); cbn [vE set_E]; [ring|reflexivity].
Qed.

(** ** the loop *)
Definition alive (dropped : list voxel) (v : voxel) : bool := negb (existsb (fun d => vid d =? vid v)%nat dropped).

Section Loop.
  Variables (paths : list voxel -> list voxel * (voxel -> voxel -> Q)) (thr : Q) (min_vxls : nat) (cont : contiguity).
  Hypothesis Hpaths : paths_ok paths.
  Variables (b : bool) (vs : list voxel).
  Hypothesis (ND : NoDup (map vid vs)) (SZ : same_size vs).

  Record inv (s : dstate) : Prop := {
    i_alive : Forall2 same_place (filter (alive (ddropped s)) vs) (dmod s);
    i_dropped : forall d, In d (ddropped s) -> (exists v, In v vs /\ same_place v d) /\ vE d < thr;
    i_nodup : NoDup (map vid (ddropped s));
    i_good : forall v, In v (dmod s) -> good b v;
    i_total : voxels_energy (dmod s) == voxels_energy vs }.

  Lemma F2_vid l m : Forall2 same_place l m -> map vid m = map vid l.
  Proof. induction 1 as [|x y l m (H & _) F IH]; cbn; [reflexivity|]. now rewrite H, IH. Qed.
  Lemma F2_in l m y : Forall2 same_place l m -> In y m -> exists x, In x l /\ same_place x y.
  Proof. induction 1 as [|x z l m H F IH]; [easy|]. intros [->|Hy]; [exists x; split; [now left|assumption]|]. destruct (IH Hy) as (w & ? & ?). exists w. split; [now right|assumption]. Qed.
  Lemma F2_filter id l m : Forall2 same_place l m ->
    Forall2 same_place (filter (fun v => negb (vid v =? id)%nat) l) (filter (fun v => negb (vid v =? id)%nat) m).
  Proof. induction 1 as [|x y l m (H & R) F IH]; cbn [filter]; [constructor|]. rewrite H. destruct (vid x =? id)%nat; cbn [negb]; [assumption|]. constructor; [split; assumption|assumption]. Qed.
  Lemma F2_trans l m n : Forall2 same_place l m -> Forall2 same_place m n -> Forall2 same_place l n.
  Proof. intros H. revert n. induction H as [|x y l m H F IH]; intros n Hn; inversion Hn; subst; constructor; [eapply same_place_trans; eassumption|auto]. Qed.

  Lemma NoDup_map_filter (p : voxel -> bool) l : NoDup (map vid l) -> NoDup (map vid (filter p l)).
  Proof.
    induction l as [|x l IH]; cbn [map filter]; intros H; [constructor|]. inversion H as [|? ? H1 H2]; subst. destruct (p x); [|auto].
    cbn [map]. constructor; [|auto]. intros C. apply H1. apply in_map_iff in C. destruct C as (y & E & Hy). apply filter_In in Hy. apply in_map_iff. exists y. tauto.
  Qed.
  Lemma inv_nodup s : inv s -> NoDup (map vid (dmod s)).
  Proof. intros I. rewrite (F2_vid _ _ (i_alive s I)). now apply NoDup_map_filter. Qed.
  Lemma inv_from s v : inv s -> In v (dmod s) -> exists v0, In v0 vs /\ same_place v0 v /\ alive (ddropped s) v0 = true.
  Proof. intros I Hv. destruct (F2_in _ _ _ (i_alive s I) Hv) as (x & Hx & E). apply filter_In in Hx. exists x. tauto. Qed.
  Lemma inv_size s : inv s -> same_size (dmod s).
  Proof.
    intros I x y Hx Hy. destruct (inv_from s x I Hx) as (x0 & X1 & (_ & _ & _ & _ & Xa & Xb & Xc & _) & _). destruct (inv_from s y I Hy) as (y0 & Y1 & (_ & _ & _ & _ & Ya & Yb & Yc & _) & _).
    destruct (SZ x0 y0 X1 Y1) as (? & ? & ?). rewrite Xa, Xb, Xc, Ya, Yb, Yc. auto.
  Qed.

  Lemma adjacent_corner u v : adjacent cont u v -> adjacent CORNER u v.
  Proof. unfold adjacent. intros H. eapply Qlt_le_trans; [exact H|]. destruct cont; cbn [cvalue]; lra. Qed.

  Lemma voxel_eq_dec (u v : voxel) l : NoDup (map vid l) -> In u l -> In v l -> vid u = vid v -> u = v.
  Proof.
    induction l as [|x l IH]; [easy|]. cbn [map]. intros H Hu Hv E. inversion H as [|? ? H1 H2]; subst.
    destruct Hu as [->|Hu], Hv as [->|Hv]; [reflexivity| | |auto]; exfalso; apply H1; apply in_map_iff; eauto.
  Qed.

  Lemma try_drop_spec s id : inv s ->
    exists s', try_drop thr cont s id = Ok s' /\
    ((s' = s /\ forall v, In v (dmod s) -> vid v = id -> thr <= vE v \/ (forall u, In u (dmod s) -> u <> v -> ~ adjacent cont v u)) \/
     (inv s' /\ dmodified s' = true /\ (length (dmod s') < length (dmod s))%nat)).
  Proof.
    intros I. unfold try_drop. destruct (find (fun v => vid v =? id)%nat (dmod s)) as [v|] eqn:Ef.
    2:{ eexists. split; [reflexivity|]. left. split; [reflexivity|]. intros v Hv E. exfalso.
        apply find_none with (x := v) in Ef; [|assumption]. cbn in Ef. rewrite E, Nat.eqb_refl in Ef. discriminate. }
    apply find_some in Ef. destruct Ef as [Hv Eid]. apply Nat.eqb_eq in Eid.
    pose proof (inv_nodup s I) as NDs.
    assert (Uniq : forall w, In w (dmod s) -> vid w = id -> w = v) by (intros w Hw E; apply (voxel_eq_dec w v (dmod s)); congruence).
    destruct (Qltb_spec (vE v) thr) as [Hlt|Hge]; cbn [andb].
    2:{ eexists. split; [reflexivity|]. left. split; [reflexivity|]. intros w Hw E. left. rewrite (Uniq w Hw E). lra. }
    destruct (Nat.ltb_spec 1 (count (neighbours cont v) (dmod s))) as [Hn|Hn].
    - set (cur := filter (fun u => negb (vid u =? id)%nat) (dmod s)).
      assert (exists u, In u cur /\ adjacent CORNER v u) as Hnb.
      { apply (count_ge_two _ _ v) in Hn. destruct Hn as (i & j & Hij & Ni & Nj).
        assert (Ii : In (nth i (dmod s) v) (dmod s)) by (apply nth_In; lia). assert (Ij : In (nth j (dmod s) v) (dmod s)) by (apply nth_In; lia).
        assert (Dij : vid (nth i (dmod s) v) <> vid (nth j (dmod s) v)).
        { intros C. rewrite <- !(map_nth vid) in C. apply (proj1 (NoDup_nth _ (vid v)) NDs) in C; rewrite ?map_length; lia. }
        apply neighbours_iff in Ni. apply neighbours_iff in Nj.
        destruct (Nat.eq_dec (vid (nth i (dmod s) v)) id) as [Ei|Ei].
        - exists (nth j (dmod s) v). split; [|now apply adjacent_corner]. apply filter_In. split; [assumption|]. apply negb_true_iff, Nat.eqb_neq. congruence.
        - exists (nth i (dmod s) v). split; [|now apply adjacent_corner]. apply filter_In. split; [assumption|]. now apply negb_true_iff, Nat.eqb_neq. }
      destruct (drop_voxel_spec b cur v) as (cur' & Ec & F & G & T); [now apply (i_good s)| |assumption|].
      { intros w Hw. apply filter_In in Hw. apply (i_good s); [assumption|apply Hw]. }
      rewrite Ec. cbn [rbind]. eexists. split; [reflexivity|]. right.
      assert (Perm : Permutation (dmod s) (v :: cur)).
      { unfold cur. clear -Hv Eid Uniq NDs. induction (dmod s) as [|x l IH]; [easy|]. cbn [filter]. cbn [map] in NDs. inversion NDs as [|? ? N1 N2]; subst.
        destruct (Nat.eqb_spec (vid x) (vid v)) as [E|E]; cbn [negb].
        - assert (x = v) by (apply Uniq; [now left|assumption]). subst x. apply perm_skip.
          assert (K : filter (fun u => negb (vid u =? vid v)%nat) l = l); [|now rewrite K].
          clear -N1. induction l as [|y l IH]; cbn [filter]; [reflexivity|]. destruct (Nat.eqb_spec (vid y) (vid v)) as [E|E]; cbn [negb].
          + exfalso. apply N1. cbn. now left.
          + f_equal. apply IH. intros C. apply N1. now right.
        - destruct Hv as [->|Hv]; [congruence|]. eapply perm_trans; [apply perm_skip, (IH Hv); [assumption|intros w Hw; apply Uniq; now right]|apply perm_swap]. }
      pose proof (Forall2_len _ _ _ F) as Lc.
      split; [|split; [reflexivity|cbn [dmod]; rewrite <- Lc; pose proof (Permutation_length Perm) as PL; cbn in PL; lia]].
      destruct (inv_from s v I Hv) as (v0 & V1 & V2 & V3). constructor; cbn [dmod ddropped].
      + assert (Ea : filter (alive (ddropped s ++ [v])) vs = filter (fun u => negb (vid u =? id)%nat) (filter (alive (ddropped s)) vs)).
        { clear -Eid. induction vs as [|x l IH]; cbn [filter]; [reflexivity|]. unfold alive at 1. rewrite existsb_app. cbn [existsb]. rewrite orb_false_r, negb_orb.
          fold (alive (ddropped s) x). rewrite Eid, (Nat.eqb_sym id (vid x)).
          destruct (alive (ddropped s) x); cbn [andb filter]; [destruct (vid x =? id)%nat; cbn [negb]; now rewrite IH|assumption]. }
        rewrite Ea. eapply F2_trans; [apply F2_filter; apply (i_alive s I)|exact F].
      + intros d Hd. apply in_app_iff in Hd. destruct Hd as [Hd|[<-|[]]]; [now apply (i_dropped s)|]. split; [eauto|assumption].
      + rewrite map_app. cbn [map]. apply NoDup_rev in V1 || idtac.
        assert (Nv : ~ In (vid v) (map vid (ddropped s))).
        { intros C. apply in_map_iff in C. destruct C as (d & E & Hd). unfold alive in V3. apply negb_true_iff in V3.
          assert (existsb (fun d => vid d =? vid v0)%nat (ddropped s) = true); [|congruence]. apply existsb_exists. exists d. split; [assumption|].
          apply Nat.eqb_eq. destruct V2 as (V2 & _). congruence. }
        pose proof (i_nodup s I) as N0. revert N0 Nv. generalize (map vid (ddropped s)) (vid v). clear. intros l x H Hx.
        induction H as [|y l Hy H IH]; cbn; [repeat constructor; easy|]. constructor.
        * rewrite in_app_iff. intros [C|[C|[]]]; [contradiction|]. subst. apply Hx. now left.
        * apply IH. intros C. apply Hx. now right.
      + exact G.
      + rewrite T. rewrite <- (i_total s I). unfold voxels_energy. rewrite (sumF_perm vE _ _ Perm), sumF_cons. ring.
    - eexists. split; [reflexivity|]. left. split; [reflexivity|]. intros w Hw E. right. rewrite (Uniq w Hw E) in *. intros u Hu Nu A.
      assert (2 <= count (neighbours cont v) (dmod s))%nat; [|lia]. apply (count_ge_two _ _ v).
      apply In_nth with (d := v) in Hu. apply In_nth with (d := v) in Hv. destruct Hu as (i & Hi & Ei), Hv as (j & Hj & Ej).
      assert (Nij : i <> j) by (intros ->; congruence).
      assert (Pi : neighbours cont v (nth i (dmod s) v) = true) by (rewrite Ei; now apply neighbours_iff).
      assert (Pj : neighbours cont v (nth j (dmod s) v) = true) by (rewrite Ej; apply neighbours_iff, adjacent_self).
      destruct (Nat.lt_ge_cases i j); [exists i, j|exists j, i]; (split; [lia|auto]).
  Qed.

  Definition quiet (s : dstate) (id : nat) : Prop :=
    forall v, In v (dmod s) -> vid v = id -> thr <= vE v \/ (forall u, In u (dmod s) -> u <> v -> ~ adjacent cont v u).

  Lemma extrema_some t : t <> [] -> NoDup (map vid t) ->
    exists u v, extrema paths t = Ok (Some (vid u, vid v)) /\ In u t /\ In v t.
  Proof.
    intros Hne Nt. destruct (Hpaths t Nt) as [P D]. unfold extrema.
    assert (Hin : forall x, In x (fst (paths t)) -> In x t) by (intros x Hx; eapply Permutation_in; [exact P|exact Hx]).
    assert (Nk : NoDup (fst (paths t))).
    { eapply Permutation_NoDup; [symmetry; exact P|]. eapply NoDup_map_inv. exact Nt. }
    destruct (fst (paths t)) as [|k1 [|k2 ks]] eqn:Ek.
    - apply Permutation_nil in P. congruence.
    - cbn. exists k1, k1. split; [reflexivity|]. split; apply Hin; now left.
    - cbn [find_extrema_and_length rbind].
      destruct (fold_best (snd (paths t)) (combinations2 (k1 :: k2 :: ks)) (None, 0)) as (H1 & H2 & H3). cbv zeta in *.
      set (r := fold_left _ _ _) in *.
      assert (I12 : In (k1, k2) (combinations2 (k1 :: k2 :: ks))) by (cbn; now left).
      assert (Pd : 0 < snd (paths t) k1 k2).
      { apply D; [apply Hin; now left|apply Hin; right; now left|]. inversion Nk as [|? ? N1 _]. intros ->. apply N1. now left. }
      pose proof (H2 _ I12) as H12. cbn [fst snd] in H12. destruct H3 as [->|(p & Hp & Ep & _)]; [cbn [snd] in H12; lra|].
      rewrite Ep. destruct p as [p q]. exists p, q. split; [reflexivity|]. apply combinations2_in in Hp. destruct Hp as (i & j & _ & Hi & Hj).
      split; apply Hin; eapply nth_error_In; eassumption.
  Qed.

  Lemma drop_track_spec s t : inv s -> t <> [] -> NoDup (map vid t) ->
    exists s', drop_track paths thr min_vxls cont s t = Ok s' /\
    ((s' = s /\ ((min_vxls <= length t)%nat -> exists u v, extrema paths t = Ok (Some (vid u, vid v)) /\ In u t /\ In v t /\ quiet s (vid u) /\ quiet s (vid v))) \/
     (inv s' /\ dmodified s' = true /\ (length (dmod s') < length (dmod s))%nat)).
  Proof.
    intros I Hne Nt. unfold drop_track. destruct (Nat.ltb_spec (length t) min_vxls) as [C|C]; [eexists; split; [reflexivity|]; left; split; [reflexivity|lia]|].
    destruct (extrema_some t Hne Nt) as (u & v & Ex & Hu & Hv). rewrite Ex. cbn [rbind].
    destruct (try_drop_spec s (vid u) I) as (s1 & E1 & D1). rewrite E1. cbn [rbind].
    destruct D1 as [[-> Q1]|(I1 & M1 & L1)].
    - destruct (try_drop_spec s (vid v) I) as (s2 & E2 & D2). exists s2. split; [assumption|].
      destruct D2 as [[-> Q2]|D2]; [left; split; [reflexivity|]; intros _; exists u, v; auto|right; assumption].
    - destruct (try_drop_spec s1 (vid v) I1) as (s2 & E2 & D2). exists s2. split; [assumption|]. right.
      destruct D2 as [[-> _]|(I2 & M2 & L2)]; [auto|]. split; [assumption|]. split; [assumption|lia].
  Qed.

  Lemma drop_tracks_spec ts : (forall t, In t ts -> t <> [] /\ NoDup (map vid t)) -> forall s, inv s ->
    exists s', drop_tracks paths thr min_vxls cont s ts = Ok s' /\
    ((s' = s /\ forall t, In t ts -> (min_vxls <= length t)%nat -> exists u v, extrema paths t = Ok (Some (vid u, vid v)) /\ In u t /\ In v t /\ quiet s (vid u) /\ quiet s (vid v)) \/
     (inv s' /\ dmodified s' = true /\ (length (dmod s') < length (dmod s))%nat)).
  Proof.
    induction ts as [|t ts IH]; intros Ht s I; cbn [drop_tracks].
    - eexists. split; [reflexivity|]. left. split; [reflexivity|easy].
    - destruct (Ht t (or_introl eq_refl)) as [Hne Nt]. destruct (drop_track_spec s t I Hne Nt) as (s1 & E1 & D1). rewrite E1. cbn [rbind].
      assert (Ht' : forall t, In t ts -> t <> [] /\ NoDup (map vid t)) by (intros; apply Ht; now right).
      destruct D1 as [[-> Q1]|(I1 & M1 & L1)].
      + destruct (IH Ht' s I) as (s2 & E2 & D2). exists s2. split; [assumption|]. destruct D2 as [[-> Q2]|D2]; [left; split; [reflexivity|]|right; assumption].
        intros t' [<-|H']; auto.
      + destruct (IH Ht' s1 I1) as (s2 & E2 & D2). exists s2. split; [assumption|]. right. destruct D2 as [[-> _]|(I2 & M2 & L2)]; [auto|].
        split; [assumption|]. split; [assumption|lia].
  Qed.

  Lemma tracks_ok s : inv s -> forall t, In t (make_track_graphs cont (dmod s)) -> t <> [] /\ NoDup (map vid t).
  Proof.
    intros I t Ht. pose proof (inv_nodup s I) as N. destruct (make_tracks_partition cont (dmod s)) as (P & Hne & _); [now apply inv_size|eapply NoDup_map_inv; exact N|].
    split; [now apply Hne|]. assert (Nc : NoDup (map vid (concat (make_track_graphs cont (dmod s))))).
    { eapply Permutation_NoDup; [|exact N]. apply Permutation_map. now symmetry. }
    revert Ht Nc. clear. induction (make_track_graphs cont (dmod s)) as [|k ll IH]; [easy|]. cbn [concat]. rewrite map_app. intros [->|Ht] Nc.
    - clear -Nc. induction (map vid t) as [|x l IH]; [constructor|]. cbn in Nc. inversion Nc; subst. constructor; [intros C; apply H1; apply in_app_iff; now left|auto].
    - apply IH; [assumption|]. clear -Nc. induction (map vid k) as [|x l IH]; [assumption|]. inversion Nc; auto.
  Qed.

  Lemma drop_loop_spec fuel : forall cur dropped, inv {| dmod := cur; ddropped := dropped; dmodified := false |} -> (length cur < fuel)%nat ->
    exists out outd, drop_loop paths thr min_vxls cont fuel cur dropped = Some (Ok (out, outd)) /\
    let s := {| dmod := out; ddropped := outd; dmodified := false |} in
    inv s /\ forall t, In t (make_track_graphs cont out) -> (min_vxls <= length t)%nat ->
       exists u v, extrema paths t = Ok (Some (vid u, vid v)) /\ In u t /\ In v t /\ quiet s (vid u) /\ quiet s (vid v).
  Proof.
    induction fuel as [|fuel IH]; intros cur dropped I Hf; [lia|]. cbn [drop_loop].
    set (s := {| dmod := cur; ddropped := dropped; dmodified := false |}) in *.
    destruct (drop_tracks_spec (make_track_graphs cont cur) (tracks_ok s I) s I) as (s' & E & D). rewrite E.
    destruct D as [[-> Q1]|(I1 & M1 & L1)].
    - cbn [dmodified s]. exists cur, dropped. split; [reflexivity|]. split; [exact I|]. exact Q1.
    - rewrite M1. apply IH; [|cbn [dmod s] in L1; lia]. destruct I1. constructor; assumption.
  Qed.
End Loop.
