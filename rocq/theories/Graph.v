(** Connected components of a finite graph with a symmetric adjacency *)
From Verif Require Import Base PaolinaTracks.
From Coq Require Import Relations.

Section Components.
  Context {A : Type} (adj : A -> A -> bool).
  (** the components, built by adding the nodes one by one: a node joins all the components that have an edge to it *)
  Definition meets (v : A) (comp : list A) : bool := existsb (fun u => adj u v) comp.
  Definition add_node (comps : list (list A)) (v : A) : list (list A) :=
    filter (fun k => negb (meets v k)) comps ++ [concat (filter (meets v) comps) ++ [v]].
  Definition components (vs : list A) : list (list A) := fold_left add_node vs [].
  (** joined by a chain of adjacent nodes of [vs] *)
  Definition joined (vs : list A) : A -> A -> Prop := clos_refl_trans A (fun u v => In u vs /\ In v vs /\ adj u v = true).
  Definition same_component (comps : list (list A)) (u v : A) : Prop := exists k, In k comps /\ In u k /\ In v k.
  Definition are_components (vs : list A) (comps : list (list A)) : Prop :=
    Permutation (concat comps) vs /\ (forall k, In k comps -> k <> []) /\ forall u v, In u vs -> In v vs -> (same_component comps u v <-> joined vs u v).
  Hypothesis sym : forall u v, adj u v = true -> adj v u = true.
  Lemma meets_iff v k : meets v k = true <-> exists u, In u k /\ adj u v = true.
  Proof. unfold meets. apply existsb_exists. Qed.
  Lemma joined_mono vs ws u v : (forall x, In x vs -> In x ws) -> joined vs u v -> joined ws u v.
  Proof. intros H C. induction C as [x y (Hx & Hy & K)|x|x y z _ IH1 _ IH2]; [apply rt_step; auto|apply rt_refl|eapply rt_trans; eassumption]. Qed.
  Lemma joined_sym vs u v : joined vs u v -> joined vs v u.
  Proof. intros C. induction C as [x y (Hx & Hy & K)|x|x y z _ IH1 _ IH2]; [apply rt_step; auto|apply rt_refl|eapply rt_trans; eassumption]. Qed.
  Lemma add_node_components vs comps v : NoDup (vs ++ [v]) -> are_components vs comps -> are_components (vs ++ [v]) (add_node comps v).
  Proof.
    intros ND (P & Hne & Hc).
    assert (NDc : NoDup (concat comps)). { eapply Permutation_NoDup; [symmetry; exact P|]. clear -ND. induction vs as [|a vs IH]; [constructor|].
      cbn in ND. inversion ND; subst. constructor; [intros C; apply H1; apply in_app_iff; now left|auto]. }
    assert (Hv : ~ In v vs). { intros C. apply NoDup_remove_2 in ND. apply ND. now rewrite app_nil_r. }
    assert (Hin : forall k u, In k comps -> In u k -> In u vs).
    { intros k u Hk Hu. eapply Permutation_in; [exact P|]. apply in_concat. eauto. }
    set (new := concat (filter (meets v) comps) ++ [v]).
    split; [|split].
    - unfold add_node. fold new. rewrite concat_app. cbn [concat]. rewrite app_nil_r. unfold new. rewrite app_assoc.
      apply Permutation_app_tail. now rewrite concat_filter_perm.
    - unfold add_node. fold new. intros k Hk. apply in_app_iff in Hk. destruct Hk as [Hk|[<-|[]]].
      + apply filter_In in Hk. now apply Hne.
      + unfold new. intros C. apply app_eq_nil in C. destruct C. discriminate.
    - assert (Mono : forall x y, joined vs x y -> joined (vs ++ [v]) x y).
      { intros x y. apply joined_mono. intros z Hz. apply in_app_iff. now left. }
      assert (Vin : In v (vs ++ [v])) by (apply in_app_iff; right; now left).
      assert (New : forall u, In u new -> joined (vs ++ [v]) u v).
      { intros u Hu. unfold new in Hu. apply in_app_iff in Hu. destruct Hu as [Hu|[<-|[]]]; [|apply rt_refl].
        apply in_concat in Hu. destruct Hu as (k & Hk & Hu). apply filter_In in Hk. destruct Hk as [Hk T]. apply meets_iff in T.
        destruct T as (w & Hw & K). assert (C : joined (vs ++ [v]) u w) by (apply Mono; apply (Hc u w); [exact (Hin k u Hk Hu)|exact (Hin k w Hk Hw)|exists k; auto]).
        eapply rt_trans; [exact C|]. apply rt_step. split; [apply in_app_iff; left; eapply Hin; eassumption|auto]. }
      assert (Old : forall k, In k (add_node comps v) -> k = new \/ (In k comps /\ meets v k = false)).
      { intros k Hk. unfold add_node in Hk. fold new in Hk. apply in_app_iff in Hk. destruct Hk as [Hk|[<-|[]]]; [right|now left].
        apply filter_In in Hk. destruct Hk as [Hk T]. apply negb_true_iff in T. auto. }
      assert (InNew : In new (add_node comps v)) by (unfold add_node; fold new; apply in_app_iff; right; now left).
      assert (Keep : forall k, In k comps -> meets v k = false -> In k (add_node comps v)).
      { intros k Hk T. unfold add_node. apply in_app_iff. left. apply filter_In. rewrite T. auto. }
      assert (Move : forall k u, In k comps -> meets v k = true -> In u k -> In u new).
      { intros k u Hk T Hu. unfold new. apply in_app_iff. left. apply in_concat. exists k. split; [|assumption]. apply filter_In. auto. }
      assert (Step : forall x y, In x (vs ++ [v]) -> In y (vs ++ [v]) -> adj x y = true -> forall k, In k (add_node comps v) -> In x k -> In y k).
      { intros x y Hx Hy K k Hk Xk. apply in_app_iff in Hx. apply in_app_iff in Hy.
        destruct (Old k Hk) as [->|[Hkc T]].
        - destruct Hy as [Hy|[<-|[]]]; [|unfold new; apply in_app_iff; right; now left].
          destruct Hx as [Hx|[<-|[]]].
          + assert (exists b, In b comps /\ In x b /\ In y b) as (b & Hb & Xb & Yb).
            { destruct (proj2 (Hc x y Hx Hy)) as (b & ? & ? & ?); [apply rt_step; auto|eauto]. }
            apply (Move b); [assumption| |assumption]. unfold new in Xk. apply in_app_iff in Xk. destruct Xk as [Xk|[->|[]]]; [|contradiction].
            apply in_concat in Xk. destruct Xk as (b' & Hb' & Xb'). apply filter_In in Hb'. destruct Hb' as [Hb' T'].
            now rewrite (same_block_eq comps x b b').
          + eapply Permutation_in in Hy; [|symmetry; exact P]. apply in_concat in Hy. destruct Hy as (b & Hb & Yb).
            apply (Move b); [assumption| |assumption]. apply meets_iff. exists y. split; [assumption|]. now apply sym.
        - assert (Hxv : In x vs) by (eapply Hin; eassumption).
          destruct Hy as [Hy|[<-|[]]].
          + destruct (proj2 (Hc x y Hxv Hy)) as (b & Hb & Xb & Yb); [apply rt_step; auto|]. now rewrite (same_block_eq comps x k b).
          + exfalso. assert (meets v k = true) by (apply meets_iff; eauto). congruence. }
      intros x y Hx Hy. split.
      + intros (k & Hk & Xk & Yk). destruct (Old k Hk) as [->|[Hkc _]].
        * eapply rt_trans; [now apply New|]. apply joined_sym. now apply New.
        * apply Mono. apply Hc; [eapply Hin; eassumption..|]. exists k. auto.
      + intros C. assert (Ex : exists k, In k (add_node comps v) /\ In x k).
        { apply in_app_iff in Hx. destruct Hx as [Hx|[<-|[]]]; [|exists new; split; [assumption|unfold new; apply in_app_iff; right; now left]].
          eapply Permutation_in in Hx; [|symmetry; exact P]. apply in_concat in Hx. destruct Hx as (b & Hb & Xb).
          destruct (meets v b) eqn:T; [exists new; split; [assumption|exact (Move b x Hb T Xb)]|exists b; split; [now apply Keep|assumption]]. }
        destruct Ex as (k & Hk & Xk). exists k. split; [assumption|]. split; [assumption|]. clear Hx Hy.
        revert Xk. apply clos_rt_rt1n in C. induction C as [x|x w y (Hx & Hw & K) C IH]; intros Xk; [assumption|]. apply IH. exact (Step x w Hx Hw K k Hk Xk).
  Qed.
  Lemma components_spec vs : NoDup vs -> are_components vs (components vs).
  Proof.
    intros ND. unfold components.
    assert (K : forall todo done comps, NoDup (done ++ todo) -> are_components done comps -> are_components (done ++ todo) (fold_left add_node todo comps)).
    { induction todo as [|v todo IH]; intros done comps ND' HP; cbn [fold_left]; [now rewrite app_nil_r|].
      replace (done ++ v :: todo) with ((done ++ [v]) ++ todo) in * by now rewrite <- app_assoc.
      apply IH; [assumption|]. apply add_node_components; [|assumption]. clear - ND'. induction (done ++ [v]) as [|a l IH]; [constructor|]. cbn in ND'. inversion ND'; subst. constructor; [intros C; apply H1; apply in_app_iff; now left|auto]. }
    apply (K vs [] []); [assumption|]. split; [reflexivity|]. split; [intros k []|intros u v []].
  Qed.
End Components.
