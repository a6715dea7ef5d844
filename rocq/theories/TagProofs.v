(** The search finds the clusters *)
From Coq Require Import Lia Relations.
From Verif Require Import Base Arrays TagModel TagSpec.
Local Open Scope nat_scope.
Set Default Proof Using "Type".

Lemma filter_shorter {A} (p q : A -> bool) l y : (forall x, p x = true -> q x = true) -> In y l -> q y = true -> p y = false -> length (filter p l) < length (filter q l).
Proof.
  intros H. assert (LE : forall l, length (filter p l) <= length (filter q l)).
  { clear l. induction l as [|a l IH]; [cbn; lia|]. cbn. destruct (p a) eqn:E; [rewrite (H a E); cbn; lia|destruct (q a); cbn; lia]. }
  induction l as [|a l IH]; intros I Q P; [destruct I|]. cbn. destruct I as [->|I].
  - rewrite P, Q. cbn. specialize (LE l). lia.
  - specialize (IH I Q P). destruct (p a) eqn:E; [rewrite (H a E); cbn; lia|destruct (q a); cbn; lia].
Qed.

Lemma filter_length_le {A} (p : A -> bool) l : length (filter p l) <= length l.
Proof. induction l as [|a l IH]; cbn; [lia|]. destruct (p a); cbn; lia. Qed.

Section Proofs.
  Variables (n : nat) (nb : nat -> list nat) (core : nat -> bool).
  Hypothesis nb_in : forall i j, In j (nb i) -> i < n /\ j < n.
  Hypothesis nb_length : forall i, length (nb i) <= n.
  Hypothesis nb_sym : forall i j, In j (nb i) -> In i (nb j).

  Definition reach : nat -> nat -> Prop := clos_refl_trans nat (fun a b => core a = true /\ In b (nb a)).
  Definition left_ (labels : list (option nat)) : nat := length (filter (unlabelled labels) (seq 0 n)).
  Lemma unlabelled_iff labels i : unlabelled labels i = true <-> nth i labels None = None.
  Proof. unfold unlabelled. destruct (nth i labels None); split; congruence. Qed.
  Lemma unlabelled_false labels i : unlabelled labels i = false <-> exists l, nth i labels None = Some l.
  Proof. unfold unlabelled. destruct (nth i labels None) as [l|]; split; try congruence; [intros _; eauto|intros (l & H); congruence]. Qed.

  Lemma expand_spec L fuel : forall stack labels, length labels = n -> (forall x, In x stack -> x < n) -> left_ labels * S n + length stack <= fuel ->
    let after := expand nb core fuel L stack labels in
    length after = n /\
    (forall x l, nth x labels None = Some l -> nth x after None = Some l) /\
    (forall x, nth x labels None = None -> nth x after None = None \/ nth x after None = Some L) /\
    (forall x, In x stack -> nth x after None <> None) /\
    (forall x, nth x labels None = None -> nth x after None <> None -> core x = true -> forall v, In v (nb x) -> nth v after None <> None) /\
    (forall x, nth x labels None = None -> nth x after None <> None -> exists s, In s stack /\ reach s x).
  Proof using nb_in nb_length.
    induction fuel as [|fuel IH]; intros stack labels Ln St F; cbn zeta.
    { destruct stack; [|cbn in F; lia]. cbn. split; [assumption|]. split; [trivial|]. split; [auto|]. split; [intros x []|]. split; [congruence|congruence]. }
    destruct stack as [|i stack].
    { cbn. split; [assumption|]. split; [trivial|]. split; [auto|]. split; [intros x []|]. split; [congruence|congruence]. }
    cbn [expand]. assert (Hi : i < n) by (apply St; now left). destruct (unlabelled labels i) eqn:U.
    - set (labels1 := upd i (Some L) labels). assert (L1 : length labels1 = n) by (unfold labels1; now rewrite length_upd).
      assert (N1 : forall x, nth x labels1 None = if Nat.eqb x i then Some L else nth x labels None) by (intros x; unfold labels1; apply nth_upd; lia).
      apply unlabelled_iff in U. set (new := if core i then filter (unlabelled labels1) (nb i) else []).
      assert (New : forall v, In v new <-> core i = true /\ In v (nb i) /\ nth v labels1 None = None).
      { intros v. unfold new. destruct (core i); [|split; [intros []|intros (C & _); discriminate]]. rewrite filter_In, unlabelled_iff. tauto. }
      assert (LN : length new <= n) by (unfold new; destruct (core i); [|cbn; lia]; pose proof (nb_length i); pose proof (filter_length_le (unlabelled labels1) (nb i)); lia).
      assert (LT : left_ labels1 < left_ labels).
      { apply (filter_shorter _ _ _ i); [|apply in_seq; lia|now apply unlabelled_iff|apply unlabelled_false; exists L; rewrite N1, Nat.eqb_refl; reflexivity].
        intros x H. apply unlabelled_iff in H. apply unlabelled_iff. rewrite N1 in H. destruct (Nat.eqb x i); [discriminate|assumption]. }
      destruct (IH (rev new ++ stack) labels1 L1) as (A0 & A & B & C & D & E).
      { intros x Hx. apply in_app_iff in Hx. destruct Hx as [Hx|Hx]; [|apply St; now right]. apply in_rev in Hx. apply New in Hx. apply (nb_in i x). tauto. }
      { rewrite app_length, rev_length. cbn [length] in F. nia. }
      set (after := expand nb core fuel L (rev new ++ stack) labels1) in *. assert (Ai : nth i after None = Some L) by (apply A; rewrite N1, Nat.eqb_refl; reflexivity).
      split; [assumption|]. split.
      { intros x l H. apply A. rewrite N1. destruct (Nat.eqb_spec x i) as [->|]; [congruence|assumption]. }
      split.
      { intros x H. destruct (Nat.eqb_spec x i) as [->|Hx]; [right; assumption|]. apply B. rewrite N1. now rewrite (proj2 (Nat.eqb_neq x i) Hx). }
      split.
      { intros x [<-|H]; [congruence|]. apply C. apply in_app_iff. now right. }
      split.
      { intros x H1 H2 Cx v Hv. destruct (Nat.eqb_spec x i) as [->|Hx].
        - destruct (nth v labels1 None) as [l|] eqn:Ev; [rewrite (A v l Ev); discriminate|]. apply C. apply in_app_iff. left. apply -> in_rev. apply New. auto.
        - apply (D x); [|assumption..]. rewrite N1. now rewrite (proj2 (Nat.eqb_neq x i) Hx). }
      intros x H1 H2. destruct (Nat.eqb_spec x i) as [->|Hx]; [exists i; split; [now left|apply rt_refl]|]. destruct (E x) as (s & Hs & R); [rewrite N1; now rewrite (proj2 (Nat.eqb_neq x i) Hx)|assumption|].
      apply in_app_iff in Hs. destruct Hs as [Hs|Hs]; [|exists s; split; [now right|assumption]]. apply in_rev in Hs. apply New in Hs. exists i. split; [now left|]. eapply rt_trans; [apply rt_step; split; [apply Hs|apply Hs]|exact R].
    - apply unlabelled_false in U. destruct U as (li & U). destruct (IH stack labels Ln) as (A0 & A & B & C & D & E); [intros x Hx; apply St; now right|cbn [length] in F; lia|].
      split; [assumption|]. split; [assumption|]. split; [assumption|]. split; [intros x [<-|H]; [rewrite (A _ _ U); discriminate|auto]|]. split; [assumption|].
      intros x H1 H2. destruct (E x H1 H2) as (s & Hs & R). exists s. split; [now right|assumption].
  Qed.

  Notation chain' := (chain n (fun a b => In b (nb a)) (fun a => core a = true)).
  Lemma chain_sym a b : chain' a b -> chain' b a.
  Proof using nb_sym. intros C. induction C as [x y (A & B & C & D & E)|x|x y z _ I1 _ I2]; [apply rt_step; do 4 (split; [assumption|]); apply nb_sym; exact E|apply rt_refl|eapply rt_trans; eassumption]. Qed.
  Lemma reach_chain i x : core i = true -> reach i x -> x = i \/ exists b, core b = true /\ chain' i b /\ In x (nb b).
  Proof using nb_in.
    intros Ci R. apply clos_rt_rtn1 in R. induction R as [|y z (Cy & Hz) R IH]; [now left|]. right. exists y. split; [assumption|]. split; [|assumption]. destruct IH as [->|(b & Cb & Hb & Hy)]; [apply rt_refl|].
    eapply rt_trans; [exact Hb|]. apply rt_step. destruct (nb_in b y Hy). auto.
  Qed.

  Definition inv (labels : list (option nat)) (m k : nat) : Prop :=
    length labels = n /\
    (forall x l, nth x labels None = Some l -> l < m) /\
    (forall c l v, core c = true -> nth c labels None = Some l -> In v (nb c) -> exists l', nth v labels None = Some l' /\ l' <= l /\ (core v = true -> l' = l)) /\
    (forall a b l, core a = true -> core b = true -> nth a labels None = Some l -> nth b labels None = Some l -> chain' a b) /\
    (forall a l, core a = false -> nth a labels None = Some l -> exists b, core b = true /\ In a (nb b) /\ nth b labels None = Some l) /\
    (forall l, l < m -> exists a, a < n /\ core a = true /\ nth a labels None = Some l) /\
    (forall a, a < k -> a < n -> core a = true -> nth a labels None <> None).

  Lemma inv_step labels m k : inv labels m k -> k < n -> let '(labels', m') := start n nb core (labels, m) k in inv labels' m' (S k).
  Proof using nb_in nb_length nb_sym.
    intros (I0 & I1 & I2 & I3 & I4 & I5 & I6) Hk. unfold start. destruct (negb (unlabelled labels k) || negb (core k)) eqn:G.
    - split; [assumption|]. do 5 (split; [assumption|]). intros a Ha Hn Ca. destruct (Nat.eq_dec a k) as [->|]; [|apply I6; [lia|assumption..]]. apply orb_true_iff in G. rewrite !negb_true_iff in G. destruct G as [G|G]; [|congruence].
      apply unlabelled_false in G. destruct G as (l & ->). discriminate.
    - apply orb_false_iff in G. rewrite !negb_false_iff in G. destruct G as [G Ck]. apply unlabelled_iff in G.
      destruct (expand_spec m (steps n) [k] labels I0) as (A0 & A & B & C & D & E); [intros x [<-|[]]; assumption| |].
      { unfold steps. cbn [length]. unfold left_. pose proof (filter_length_le (unlabelled labels) (seq 0 n)). rewrite seq_length in *. nia. }
      set (after := expand nb core (steps n) m [k] labels) in *.
      assert (Bs : forall x l, nth x after None = Some l -> nth x labels None = Some l \/ (nth x labels None = None /\ l = m)).
      { intros x l H. destruct (nth x labels None) as [l'|] eqn:Ex; [left; rewrite (A x l' Ex) in H; congruence|]. right. split; [reflexivity|]. destruct (B x Ex) as [B'|B']; congruence. }
      assert (J1 : forall x l, nth x after None = Some l -> l < S m) by (intros x l H; destruct (Bs x l H) as [H'|[_ ->]]; [specialize (I1 x l H'); lia|lia]).
      assert (J2 : forall c l v, core c = true -> nth c after None = Some l -> In v (nb c) -> exists l', nth v after None = Some l' /\ l' <= l /\ (core v = true -> l' = l)).
      { intros c l v Cc Hc Hv. destruct (Bs c l Hc) as [Hc'|[Hc' ->]].
        - destruct (I2 c l v Cc Hc' Hv) as (l' & E1 & E2). exists l'. split; [now apply A|assumption].
        - assert (Nv : nth v after None <> None) by (apply (D c Hc'); [congruence|assumption..]). destruct (nth v after None) as [l'|] eqn:Ev; [|congruence]. exists l'. split; [reflexivity|]. specialize (J1 v l' Ev). split; [lia|]. intros Cv.
          destruct (Bs v l' Ev) as [Hv'|[_ H]]; [|assumption]. destruct (I2 v l' c Cv Hv' (nb_sym c v Hv)) as (lc & E1 & _). congruence. }
      assert (Hkm : nth k after None = Some m) by (destruct (B k G) as [H|H]; [exfalso; apply (C k (or_introl eq_refl) H)|exact H]).
      assert (Ch : forall a b, chain' a b -> core a = true -> nth a after None = Some m -> nth b after None = Some m).
      { intros a b H. apply clos_rt_rt1n in H. induction H as [|x y z (_ & _ & Cx & Cy & Hy) _ IH]; [trivial|]. intros _ Hx. apply IH; [assumption|]. destruct (J2 x m y Cx Hx Hy) as (l' & E1 & _ & E2). rewrite E1, (E2 Cy). reflexivity. }
      assert (Nw : forall x, nth x labels None = None -> nth x after None <> None -> x = k \/ exists b, core b = true /\ chain' k b /\ In x (nb b)).
      { intros x H1 H2. destruct (E x H1 H2) as (s & [<-|[]] & R). now apply reach_chain. }
      assert (Nc : forall x, core x = true -> nth x labels None = None -> nth x after None <> None -> chain' k x).
      { intros x Cx H1 H2. destruct (Nw x H1 H2) as [->|(b & Cb & Hb & Hx)]; [apply rt_refl|]. eapply rt_trans; [exact Hb|]. apply rt_step. destruct (nb_in b x Hx). auto. }
      split; [assumption|]. split; [assumption|]. split; [assumption|]. split.
      { intros a b l Ca Cb Ha Hb. destruct (Bs a l Ha) as [Ha'|[Ha' ->]], (Bs b _ Hb) as [Hb'|[Hb' E']].
        - eauto.
        - subst l. specialize (I1 a m Ha'). lia.
        - specialize (I1 b m Hb'). lia.
        - eapply rt_trans; [apply chain_sym, (Nc a Ca Ha'); congruence|apply (Nc b Cb Hb'); congruence]. }
      split.
      { intros a l Ca Ha. destruct (Bs a l Ha) as [Ha'|[Ha' ->]].
        - destruct (I4 a l Ca Ha') as (b & Cb & Hb & Lb). exists b. split; [assumption|]. split; [assumption|now apply A].
        - destruct (Nw a Ha') as [->|(b & Cb & Hb & Hx)]; [congruence|congruence|]. exists b. split; [assumption|]. split; [assumption|]. now apply (Ch k b). }
      split.
      { intros l Hl. destruct (Nat.eq_dec l m) as [->|]; [exists k; auto|]. destruct (I5 l) as (a & Ha & Ca & La); [lia|]. exists a. auto. }
      intros a Ha Hn Ca. destruct (Nat.eq_dec a k) as [->|]; [congruence|]. assert (H : nth a labels None <> None) by (apply I6; [lia|assumption..]). destruct (nth a labels None) as [l|] eqn:El; [|congruence]. rewrite (A a l El). discriminate.
  Qed.

  Lemma inv_fold k : k <= n -> let '(labels, m) := fold_left (start n nb core) (seq 0 k) (repeat None n, 0) in inv labels m k.
  Proof using nb_in nb_length nb_sym.
    induction k as [|k IH]; intros Hk.
    - cbn [seq fold_left]. assert (Z : forall x, nth x (repeat (@None nat) n) None = None) by (intros x; apply nth_repeat).
      split; [apply repeat_length|]. split; [intros x l H; rewrite Z in H; discriminate|]. split; [intros c l v _ H; rewrite Z in H; discriminate|]. split; [intros a b l _ _ H; rewrite Z in H; discriminate|].
      split; [intros a l _ H; rewrite Z in H; discriminate|]. split; [intros l H; lia|intros a H; lia].
    - rewrite seq_S, fold_left_app. cbn [fold_left Nat.add]. specialize (IH ltac:(lia)). destruct (fold_left (start n nb core) (seq 0 k) (repeat None n, 0)) as [labels m]. apply inv_step; [assumption|lia].
  Qed.
  Theorem dbscan_clusters : are_clusters n (fun a b => In b (nb a)) (fun a => core a = true) (dbscan n nb core).
  Proof using nb_in nb_length nb_sym.
    unfold dbscan. pose proof (inv_fold n (Nat.le_refl n)) as H. destruct (fold_left (start n nb core) (seq 0 n) (repeat None n, 0)) as [labels m]. cbn [fst]. destruct H as (I0 & I1 & I2 & I3 & I4 & I5 & I6).
    assert (Some_ : forall a, a < n -> core a = true -> exists l, nth a labels None = Some l) by (intros a Ha Ca; specialize (I6 a Ha Ha Ca); destruct (nth a labels None) as [l|]; [eauto|congruence]).
    split; [assumption|]. split; [assumption|]. split.
    - intros a b Ha Hb Ca Cb. split.
      + intros E. destruct (Some_ a Ha Ca) as (l & El). apply (I3 a b l); [assumption..|congruence].
      + intros C. apply clos_rt_rt1n in C. induction C as [|x y z (Hx & Hy & Cx & Cy & Hxy) _ IH]; [reflexivity|]. rewrite <- IH by assumption. destruct (Some_ x Hx Cx) as (l & El). destruct (I2 x l y Cx El Hxy) as (l' & E1 & _ & E2). rewrite El, E1, (E2 Cy). reflexivity.
    - split; [|split].
      + intros a Ha Ca Na b Hb Cb C. destruct (Some_ b Hb Cb) as (l & El). destruct (I2 b l a Cb El C) as (l' & E1 & _). congruence.
      + intros a l Ha Ca Ea. apply not_true_is_false in Ca. split.
        * destruct (I4 a l Ca Ea) as (b & Cb & Hb & Lb). exists b. destruct (nb_in b a Hb). auto.
        * intros b k Hb Cb C Lb. destruct (I2 b k a Cb Lb C) as (l' & E1 & E2 & _). congruence || (assert (l' = l) by congruence; lia).
      + exists m. split; assumption.
  Qed.
End Proofs.
