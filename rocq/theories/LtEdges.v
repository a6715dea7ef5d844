(** C76: the edges of bins given by their centres *)
From Verif Require Import Base Arrays PeaksModel BuffersModel WfmModel LtModel LtProps.
From Coq Require Import Sorted.
Local Open Scope Q_scope.

(** ---- specification ---- *)
Definition least_of (c : list Q) (a : Q) : Prop := In a c /\ forall x, In x c -> a <= x.
Definition greatest_of (c : list Q) (b : Q) : Prop := In b c /\ forall x, In x c -> x <= b.

Lemma increasing_iff c : increasing c = true <-> StronglySorted Qlt c.
Proof.
  induction c as [|a [|b l] IH]; [split; [constructor|reflexivity]|split; [intros _; repeat constructor|reflexivity]|]. change (increasing (a :: b :: l)) with (Qltb a b && increasing (b :: l)). rewrite andb_true_iff, IH, Qltb_lt. split.
  - intros [H S]. constructor; [assumption|]. inversion S as [|? ? S' F]; subst. constructor; [assumption|]. rewrite Forall_forall in *. intros x Hx. specialize (F x Hx). lra.
  - intros S. inversion S as [|? ? S' F]; subst. inversion F; subst. auto.
Qed.
Lemma greatest_last a l b : StronglySorted Qlt (a :: l) -> greatest_of (a :: l) b -> last (a :: l) a == b.
Proof. intros S [I G]. apply Qle_antisym; [apply G; apply last_is_in|now apply last_greatest]. Qed.
Lemma least_first a l b : StronglySorted Qlt (a :: l) -> least_of (a :: l) b -> a == b.
Proof. intros S [I G]. apply Qle_antisym; [|apply G; now left]. destruct I as [<-|I]; [apply Qle_refl|]. inversion S as [|? ? _ F]; subst. rewrite Forall_forall in F. specialize (F b I). lra. Qed.
(** every centre is between the edges of its bin, and the edges between bins are halfway between centres *)
Definition around (c edges : list Q) : Prop := length edges = S (length c)
  /\ (forall i x, nth_error c i = Some x -> nth i edges 0 <= x <= nth (S i) edges 0)
  /\ (forall i x y, nth_error c i = Some x -> nth_error c (S i) = Some y -> nth (S i) edges 0 == (x + y) * (1 # 2)).
Lemma nth_middles a l i x y : nth_error (a :: l) i = Some x -> nth_error (a :: l) (S i) = Some y -> nth i (middles (a :: l)) 0 == (x + y) * (1 # 2).
Proof.
  revert a i. induction l as [|b l IH]; intros a i Hx Hy; [destruct i as [|[|i]]; discriminate|]. change (middles (a :: b :: l)) with ((b + a) / 2 :: middles (b :: l)). destruct i as [|i]; cbn in Hx, Hy |- *; [injection Hx as ->; injection Hy as ->; field|]. apply (IH b i); assumption.
Qed.
Lemma sorted_nth a l i x y : StronglySorted Qlt (a :: l) -> nth_error (a :: l) i = Some x -> nth_error (a :: l) (S i) = Some y -> x < y.
Proof.
  revert a i. induction l as [|b l IH]; intros a i S Hx Hy; [destruct i as [|[|i]]; discriminate|]. inversion S as [|? ? S' F]; subst. destruct i as [|i]; [cbn in Hx, Hy; injection Hx as <-; injection Hy as <-; now inversion F|]. apply (IH b i S'); assumption.
Qed.
Lemma last_nth (a : Q) l : nth_error (a :: l) (length l) = Some (last (a :: l) a).
Proof. revert a. induction l as [|b l IH]; intros a; [reflexivity|]. cbn [length]. change (nth_error (a :: b :: l) (S (length l))) with (nth_error (b :: l) (length l)). rewrite IH. f_equal. change (last (a :: b :: l) a) with (last (b :: l) a). apply last_cons. Qed.
Lemma edges_around a l lo hi : StronglySorted Qlt (a :: l) -> lo <= a -> last (a :: l) a <= hi -> around (a :: l) (lo :: middles (a :: l) ++ [hi]).
Proof.
  intros S Lo Hi. split; [cbn [length]; rewrite app_length, length_middles; cbn; lia|].
  assert (M : forall i x y, nth_error (a :: l) i = Some x -> nth_error (a :: l) (Datatypes.S i) = Some y -> nth (Datatypes.S i) (lo :: middles (a :: l) ++ [hi]) 0 == (x + y) * (1 # 2)).
  { intros i x y Hx Hy. cbn [nth]. rewrite app_nth1; [now apply nth_middles|]. rewrite length_middles. assert (Datatypes.S i < length (a :: l))%nat by (apply nth_error_Some; congruence). cbn in *. lia. }
  split; [|exact M]. intros i x Hx. assert (Hi' : (i < length (a :: l))%nat) by (apply nth_error_Some; congruence). split.
  - destruct i as [|i]; [cbn in Hx |- *; injection Hx as <-; assumption|]. destruct (nth_error (a :: l) i) as [w|] eqn:W; [|apply nth_error_None in W; lia]. rewrite (M i w x W Hx). assert (w < x) by (eapply sorted_nth; eassumption). lra.
  - destruct (nth_error (a :: l) (Datatypes.S i)) as [y|] eqn:Y; [rewrite (M i x y Hx Y); assert (x < y) by (eapply sorted_nth; eassumption); lra|]. apply nth_error_None in Y. assert (i = length l) as -> by (cbn in *; lia). rewrite last_nth in Hx. injection Hx as <-.
    cbn [nth]. rewrite app_nth2, length_middles, Nat.sub_diag by (rewrite length_middles; lia). exact Hi.
Qed.

(** The edges go from one end of the range to the other, or from the first to the last centre, around the centres.
    Centres that do not increase, an empty range and centres out of the range are refused with ValueError. *)
Theorem C76_edges c range : c <> [] ->
  (~ StronglySorted Qlt c -> binedges_from_bincenters c range = Err ValueError)
  /\ (StronglySorted Qlt c -> forall a b, least_of c a -> greatest_of c b ->
       match range with
       | None => exists edges, binedges_from_bincenters c None = Ok edges /\ around c edges /\ nth 0 edges 0 == a /\ nth (length c) edges 0 == b
       | Some (lo, hi) =>
           (lo < hi /\ lo <= a /\ b <= hi -> exists edges, binedges_from_bincenters c range = Ok edges /\ around c edges /\ nth 0 edges 0 = lo /\ nth (length c) edges 0 = hi)
           /\ (hi <= lo \/ a < lo \/ hi < b -> binedges_from_bincenters c range = Err ValueError)
       end).
Proof.
  intros NE. destruct c as [|x l]; [contradiction|]. unfold binedges_from_bincenters. split.
  - intros N. destruct (increasing (x :: l)) eqn:E; [exfalso; apply N; now apply increasing_iff|]. reflexivity.
  - intros S a b La Gb. rewrite (proj2 (increasing_iff _) S). cbn [negb]. assert (Ea := least_first x l a S La). assert (Eb := greatest_last x l b S Gb).
    assert (Le : forall h, nth (length (x :: l)) (h :: middles (x :: l) ++ [last (x :: l) x]) 0 = last (x :: l) x) by (intros h; cbn [length nth]; rewrite app_nth2, length_middles, Nat.sub_diag by (rewrite length_middles; lia); reflexivity).
    destruct range as [[lo hi]|].
    + split.
      * intros (H1 & H2 & H3). rewrite (proj2 (Qltb_lt lo hi)) by assumption. cbn [negb]. destruct (Qltb_spec x lo); [lra|]. destruct (Qltb_spec hi (last (x :: l) x)); [lra|]. cbn [orb]. eexists. split; [reflexivity|]. split; [apply edges_around; [assumption|lra|lra]|]. split; [reflexivity|].
        cbn [length nth]. rewrite app_nth2, length_middles, Nat.sub_diag by (rewrite length_middles; lia). reflexivity.
      * intros H. destruct (Qltb_spec lo hi); cbn [negb]; [|reflexivity]. destruct (Qltb_spec x lo); [reflexivity|]. cbn [orb]. destruct (Qltb_spec hi (last (x :: l) x)); [reflexivity|]. exfalso. destruct H as [H|[H|H]]; lra.
    + eexists. split; [reflexivity|]. split; [apply edges_around; [assumption|apply Qle_refl|apply Qle_refl]|]. split; [assumption|]. rewrite Le. assumption.
Qed.
Print Assumptions C76_edges.
Theorem C76_no_centres range : binedges_from_bincenters [] range = Err IndexError.
Proof. reflexivity. Qed.
Example C76_edges_ex : binedges_from_bincenters [1; 3; 7] (Some (0, 9)) = Ok [0; (3 + 1) / 2; (7 + 3) / 2; 9] /\ binedges_from_bincenters [1; 3; 7] (Some (2, 9)) = Err ValueError /\ binedges_from_bincenters [1; 1] None = Err ValueError.
Proof. repeat split. Qed.
Print Assumptions C76_no_centres.
