(** Lemmas for C21 and C22: tracks and their extremes *)
From Verif Require Import Base PaolinaModel PaolinaSpec.
From Coq Require Import Relations.
Local Open Scope Q_scope.

Lemma neighbours_iff c u v : neighbours c u v = true <-> adjacent c u v.
Proof. unfold neighbours, adjacent. rewrite Qltb_lt. reflexivity. Qed.

Lemma adjacent_sym c vs u v : same_size vs -> In u vs -> In v vs -> adjacent c u v -> adjacent c v u.
Proof.
  intros S Hu Hv H. unfold adjacent in *. destruct (S u v Hu Hv) as (E1 & E2 & E3).
  assert (K : forall a b s s', s == s' -> ((a - b) / s) * ((a - b) / s) == ((b - a) / s') * ((b - a) / s')).
  { intros a b s s' E. rewrite E. unfold Qdiv. ring. }
  rewrite (K _ _ _ _ E1), (K _ _ _ _ E2), (K _ _ _ _ E3) in H. exact H.
Qed.
Lemma adjacent_self c u : adjacent c u u.
Proof.
  unfold adjacent. assert (K : forall a s, ((a - a) / s) * ((a - a) / s) == 0) by (intros; unfold Qdiv; ring).
  rewrite !K. destruct c; reflexivity.
Qed.

Lemma connected_mono c vs ws u v : (forall x, In x vs -> In x ws) -> connected c vs u v -> connected c ws u v.
Proof.
  intros H C. induction C as [x y (Hx & Hy & A)|x|x y z _ IH1 _ IH2]; [apply rt_step; auto|apply rt_refl|eapply rt_trans; eassumption].
Qed.
Lemma connected_sym c vs u v : same_size vs -> connected c vs u v -> connected c vs v u.
Proof.
  intros S C. induction C as [x y (Hx & Hy & A)|x|x y z _ IH1 _ IH2]; [apply rt_step|apply rt_refl|eapply rt_trans; eassumption].
  repeat split; try assumption. now apply (adjacent_sym c vs).
Qed.

(** the partition of [vs] into components *)
Definition together (comps : list (list voxel)) (u v : voxel) : Prop := exists k, In k comps /\ In u k /\ In v k.
Definition is_partition (c : contiguity) (vs : list voxel) (comps : list (list voxel)) : Prop :=
  Permutation (concat comps) vs /\ (forall k, In k comps -> k <> []) /\
  forall u v, In u vs -> In v vs -> (together comps u v <-> connected c vs u v).

Lemma touches_iff c v k : touches c v k = true <-> exists u, In u k /\ adjacent c u v.
Proof. unfold touches. rewrite existsb_exists. setoid_rewrite neighbours_iff. reflexivity. Qed.

Lemma concat_filter_perm {A} (p : list A -> bool) ll : Permutation (concat (filter (fun k => negb (p k)) ll) ++ concat (filter p ll)) (concat ll).
Proof.
  induction ll as [|k ll IH]; cbn [filter concat]; [reflexivity|]. destruct (p k); cbn [negb concat].
  - rewrite <- IH, !app_assoc. apply Permutation_app_tail. apply Permutation_app_comm.
  - rewrite <- IH, <- app_assoc. reflexivity.
Qed.

(** in a list without repetitions, two blocks sharing an element are the same *)
Lemma same_block {A} (ll : list (list A)) (x : A) i j k l : NoDup (concat ll) ->
  nth_error ll i = Some k -> nth_error ll j = Some l -> In x k -> In x l -> i = j.
Proof.
  revert i j. induction ll as [|b ll IH]; intros i j ND Hi Hj Hk Hl; [destruct i; discriminate|].
  cbn [concat] in ND. assert (D : forall y, In y b -> ~ In y (concat ll)).
  { clear -ND. induction b as [|a b IH]; [easy|]. cbn in ND. inversion ND; subst. intros y [<-|Hy]; [rewrite in_app_iff in H1; tauto|auto]. }
  assert (ND' : NoDup (concat ll)) by (clear -ND; induction b as [|a b IH]; [assumption|]; inversion ND; auto).
  destruct i as [|i], j as [|j]; cbn in Hi, Hj; [reflexivity| | |f_equal; eauto].
  - injection Hi as ->. exfalso. apply (D x Hk). apply in_concat. apply nth_error_In in Hj. eauto.
  - injection Hj as ->. exfalso. apply (D x Hl). apply in_concat. apply nth_error_In in Hi. eauto.
Qed.
Lemma same_block_eq {A} (ll : list (list A)) (x : A) k l : NoDup (concat ll) -> In k ll -> In l ll -> In x k -> In x l -> k = l.
Proof.
  intros ND Hk Hl Xk Xl. apply In_nth_error in Hk. apply In_nth_error in Hl. destruct Hk as [i Hi], Hl as [j Hj].
  assert (i = j) by (eapply same_block; eassumption). congruence.
Qed.

Lemma add_voxel_partition c vs comps v : same_size (vs ++ [v]) -> NoDup (vs ++ [v]) ->
  is_partition c vs comps -> is_partition c (vs ++ [v]) (add_voxel c comps v).
Proof.
  intros S ND (P & Hne & Hc).
  assert (NDc : NoDup (concat comps)). { eapply Permutation_NoDup; [symmetry; exact P|]. clear -ND. induction vs as [|a vs IH]; [constructor|].
    cbn in ND. inversion ND; subst. constructor; [intros C; apply H1; apply in_app_iff; now left|auto]. }
  assert (Hv : ~ In v vs). { intros C. apply NoDup_remove_2 in ND. apply ND. now rewrite app_nil_r. }
  assert (Hin : forall k u, In k comps -> In u k -> In u vs).
  { intros k u Hk Hu. eapply Permutation_in; [exact P|]. apply in_concat. eauto. }
  set (new := concat (filter (touches c v) comps) ++ [v]).
  split; [|split].
  - unfold add_voxel. fold new. rewrite concat_app. cbn [concat]. rewrite app_nil_r. unfold new. rewrite app_assoc.
    apply Permutation_app_tail. now rewrite concat_filter_perm.
  - unfold add_voxel. fold new. intros k Hk. apply in_app_iff in Hk. destruct Hk as [Hk|[<-|[]]].
    + apply filter_In in Hk. now apply Hne.
    + unfold new. intros C. apply app_eq_nil in C. destruct C. discriminate.
  - assert (Mono : forall x y, connected c vs x y -> connected c (vs ++ [v]) x y).
    { intros x y. apply connected_mono. intros z Hz. apply in_app_iff. now left. }
    assert (Vin : In v (vs ++ [v])) by (apply in_app_iff; right; now left).
    (* every member of the new block is connected to v *)
    assert (New : forall u, In u new -> connected c (vs ++ [v]) u v).
    { intros u Hu. unfold new in Hu. apply in_app_iff in Hu. destruct Hu as [Hu|[<-|[]]]; [|apply rt_refl].
      apply in_concat in Hu. destruct Hu as (k & Hk & Hu). apply filter_In in Hk. destruct Hk as [Hk T]. apply touches_iff in T.
      destruct T as (w & Hw & A). assert (C : connected c (vs ++ [v]) u w) by (apply Mono; apply (Hc u w); [exact (Hin k u Hk Hu)|exact (Hin k w Hk Hw)|exists k; auto]).
      eapply rt_trans; [exact C|]. apply rt_step. split; [apply in_app_iff; left; eapply Hin; eassumption|auto]. }
    assert (Old : forall k, In k (add_voxel c comps v) -> k = new \/ (In k comps /\ touches c v k = false)).
    { intros k Hk. unfold add_voxel in Hk. fold new in Hk. apply in_app_iff in Hk. destruct Hk as [Hk|[<-|[]]]; [right|now left].
      apply filter_In in Hk. destruct Hk as [Hk T]. apply negb_true_iff in T. auto. }
    assert (InNew : In new (add_voxel c comps v)) by (unfold add_voxel; fold new; apply in_app_iff; right; now left).
    assert (Keep : forall k, In k comps -> touches c v k = false -> In k (add_voxel c comps v)).
    { intros k Hk T. unfold add_voxel. apply in_app_iff. left. apply filter_In. rewrite T. auto. }
    assert (Move : forall k u, In k comps -> touches c v k = true -> In u k -> In u new).
    { intros k u Hk T Hu. unfold new. apply in_app_iff. left. apply in_concat. exists k. split; [|assumption]. apply filter_In. auto. }
    (* adjacency keeps the block *)
    assert (Step : forall x y, In x (vs ++ [v]) -> In y (vs ++ [v]) -> adjacent c x y -> forall k, In k (add_voxel c comps v) -> In x k -> In y k).
    { intros x y Hx Hy A k Hk Xk. apply in_app_iff in Hx. apply in_app_iff in Hy.
      destruct (Old k Hk) as [->|[Hkc T]].
      - destruct Hy as [Hy|[<-|[]]]; [|unfold new; apply in_app_iff; right; now left].
        destruct Hx as [Hx|[<-|[]]].
        + assert (exists b, In b comps /\ In x b /\ In y b) as (b & Hb & Xb & Yb).
          { destruct (proj2 (Hc x y Hx Hy)) as (b & ? & ? & ?); [apply rt_step; auto|eauto]. }
          apply (Move b); [assumption| |assumption]. unfold new in Xk. apply in_app_iff in Xk. destruct Xk as [Xk|[->|[]]]; [|contradiction].
          apply in_concat in Xk. destruct Xk as (b' & Hb' & Xb'). apply filter_In in Hb'. destruct Hb' as [Hb' T'].
          now rewrite (same_block_eq comps x b b').
        + eapply Permutation_in in Hy; [|symmetry; exact P]. apply in_concat in Hy. destruct Hy as (b & Hb & Yb).
          apply (Move b); [assumption| |assumption]. apply touches_iff. exists y. split; [assumption|].
          apply (adjacent_sym c (vs ++ [v])); try assumption. apply in_app_iff. left. eapply Hin; eassumption.
      - assert (Hxv : In x vs) by (eapply Hin; eassumption).
        destruct Hy as [Hy|[<-|[]]].
        + destruct (proj2 (Hc x y Hxv Hy)) as (b & Hb & Xb & Yb); [apply rt_step; auto|]. now rewrite (same_block_eq comps x k b).
        + exfalso. assert (touches c v k = true) by (apply touches_iff; eauto). congruence. }
    intros x y Hx Hy. split.
    + intros (k & Hk & Xk & Yk). destruct (Old k Hk) as [->|[Hkc _]].
      * eapply rt_trans; [now apply New|]. apply connected_sym; [assumption|]. now apply New.
      * apply Mono. apply Hc; [eapply Hin; eassumption..|]. exists k. auto.
    + intros C. assert (Ex : exists k, In k (add_voxel c comps v) /\ In x k).
      { apply in_app_iff in Hx. destruct Hx as [Hx|[<-|[]]]; [|exists new; split; [assumption|unfold new; apply in_app_iff; right; now left]].
        eapply Permutation_in in Hx; [|symmetry; exact P]. apply in_concat in Hx. destruct Hx as (b & Hb & Xb).
        destruct (touches c v b) eqn:T; [exists new; split; [assumption|exact (Move b x Hb T Xb)]|exists b; split; [now apply Keep|assumption]]. }
      destruct Ex as (k & Hk & Xk). exists k. split; [assumption|]. split; [assumption|]. clear Hx Hy.
      revert Xk. apply clos_rt_rt1n in C. induction C as [x|x w y (Hx & Hw & A) C IH]; intros Xk; [assumption|]. apply IH. exact (Step x w Hx Hw A k Hk Xk).
Qed.

Lemma make_tracks_partition c vs : same_size vs -> NoDup vs -> is_partition c vs (make_track_graphs c vs).
Proof.
  intros S ND. unfold make_track_graphs.
  assert (K : forall todo done comps, same_size (done ++ todo) -> NoDup (done ++ todo) -> is_partition c done comps ->
              is_partition c (done ++ todo) (fold_left (add_voxel c) todo comps)).
  { induction todo as [|v todo IH]; intros done comps S' ND' HP; cbn [fold_left]; [now rewrite app_nil_r|].
    replace (done ++ v :: todo) with ((done ++ [v]) ++ todo) in * by now rewrite <- app_assoc.
    apply IH; [assumption..|]. apply add_voxel_partition; [| |assumption].
    - intros x y Hx Hy. apply S'; apply in_app_iff; now left.
    - clear -ND'. revert ND'. generalize (done ++ [v]). intros l H. induction l as [|a l IHl]; [constructor|]. cbn in H. inversion H; subst.
      constructor; [intros C; apply H2; apply in_app_iff; now left|auto]. }
  apply (K vs [] []); [assumption..|]. split; [reflexivity|]. split; [easy|]. intros u v [].
Qed.

(** ** C22 *)
Lemma combinations2_in {A} (l : list A) a b : In (a, b) (combinations2 l) <-> exists i j, (i < j)%nat /\ nth_error l i = Some a /\ nth_error l j = Some b.
Proof.
  induction l as [|x l IH]; cbn [combinations2].
  - split; [easy|]. intros (i & j & _ & H & _). destruct i; discriminate.
  - rewrite in_app_iff, in_map_iff, IH. split.
    + intros [(y & E & Hy)|(i & j & Hij & Hi & Hj)].
      * inversion E; subst. apply In_nth_error in Hy. destruct Hy as [j Hj]. exists 0%nat, (S j). split; [lia|auto].
      * exists (S i), (S j). split; [lia|auto].
    + intros (i & j & Hij & Hi & Hj). destruct j as [|j]; [lia|]. cbn in Hj. destruct i as [|i].
      * left. injection Hi as <-. exists b. split; [reflexivity|]. eapply nth_error_In. exact Hj.
      * right. exists i, j. split; [lia|auto].
Qed.

Lemma fold_best {V} (dist : V -> V -> Q) ps : forall best,
  let f := fun best p => if Qltb (snd best) (dist (fst p) (snd p)) then (Some p, dist (fst p) (snd p)) else best in
  let r := fold_left f ps best in
  snd best <= snd r /\ (forall p, In p ps -> dist (fst p) (snd p) <= snd r) /\
  (r = best \/ exists p, In p ps /\ fst r = Some p /\ snd r = dist (fst p) (snd p) /\ snd best < snd r).
Proof.
  induction ps as [|p ps IH]; intros best; cbn [fold_left]; cbv zeta; [split; [lra|]; split; [easy|now left]|].
  set (f := fun best p => if Qltb (snd best) (dist (fst p) (snd p)) then (Some p, dist (fst p) (snd p)) else best) in *.
  set (b := if Qltb (snd best) (dist (fst p) (snd p)) then (Some p, dist (fst p) (snd p)) else best).
  destruct (IH b) as (H1 & H2 & H3). fold f in H1, H2, H3. set (r := fold_left f ps b) in *.
  assert (Hb : snd best <= snd b /\ dist (fst p) (snd p) <= snd b /\ (b = best \/ (b = (Some p, dist (fst p) (snd p)) /\ snd best < snd b))).
  { unfold b. destruct (Qltb_spec (snd best) (dist (fst p) (snd p))); cbn [snd]; (split; [lra|split; [lra|]]); [right; split; [reflexivity|lra]|now left]. }
  destruct Hb as (B1 & B2 & B3). split; [lra|]. split.
  - intros q [<-|Hq]; [lra|auto].
  - destruct H3 as [H3|(q & Hq & Eq & Es & Hlt)].
    + rewrite H3. destruct B3 as [->|[-> Hlt]]; [now left|]. right. exists p. cbn [fst snd]. split; [now left|]. auto.
    + right. exists q. split; [now right|]. split; [assumption|]. split; [assumption|]. lra.
Qed.
