(** Array operations shared by several models: positions where a condition holds,
    assignment to one position, to a range and to a mask *)
From Verif Require Import Base PeaksModel.

(** l[i] = v *)
Fixpoint upd {A} (i : nat) (v : A) (l : list A) : list A :=
  match l, i with
  | [], _ => []
  | _ :: l, O => v :: l
  | a :: l, S i => a :: upd i v l
  end.

(** [f i l[i]] for every position *)
Fixpoint mapi_from {A B} (k : nat) (f : nat -> A -> B) (l : list A) : list B :=
  match l with [] => [] | a :: l => f k a :: mapi_from (S k) f l end.
Definition mapi {A B} (f : nat -> A -> B) (l : list A) : list B := mapi_from 0 f l.

(** l[a:b] = v *)
Definition assign_range {A} (a b : nat) (v : A) (l : list A) : list A :=
  mapi (fun i x => if ((a <=? i) && (i <? b))%nat then v else x) l.

(** number of elements satisfying [p] *)
Definition count {A} (p : A -> bool) (l : list A) : nat := length (filter p l).

Local Open Scope nat_scope.
Lemma length_upd {A} i (v : A) l : length (upd i v l) = length l.
Proof. revert i; induction l as [|a l IH]; intros [|i]; cbn; [reflexivity..|now rewrite IH]. Qed.
Lemma nth_upd {A} i (v d : A) l j : i < length l -> nth j (upd i v l) d = if j =? i then v else nth j l d.
Proof.
  revert i j; induction l as [|a l IH]; intros i j Hi; [cbn in Hi; lia|].
  destruct i as [|i], j as [|j]; cbn; try reflexivity. apply IH. cbn in Hi. lia.
Qed.
Lemma upd_out {A} i (v : A) l : length l <= i -> upd i v l = l.
Proof. revert i; induction l as [|a l IH]; intros [|i] H; cbn in *; try reflexivity; [lia|]. f_equal. apply IH. lia. Qed.

Lemma length_mapi_from {A B} (f : nat -> A -> B) l k : length (mapi_from k f l) = length l.
Proof. revert k; induction l as [|a l IH]; intros k; cbn; [reflexivity|now rewrite IH]. Qed.
Lemma length_mapi {A B} (f : nat -> A -> B) l : length (mapi f l) = length l.
Proof. apply length_mapi_from. Qed.
Lemma nth_mapi_from {A B} (f : nat -> A -> B) l k j d d' : j < length l -> nth j (mapi_from k f l) d' = f (k + j) (nth j l d).
Proof.
  revert k j; induction l as [|a l IH]; intros k j Hj; [cbn in Hj; lia|]. destruct j as [|j]; cbn [mapi_from nth].
  - now rewrite Nat.add_0_r.
  - rewrite IH by (cbn in Hj; lia). now rewrite Nat.add_succ_r.
Qed.
Lemma nth_mapi {A B} (f : nat -> A -> B) l j d d' : j < length l -> nth j (mapi f l) d' = f j (nth j l d).
Proof. intros H. unfold mapi. now rewrite nth_mapi_from with (d := d). Qed.

Lemma length_assign_range {A} a b (v : A) l : length (assign_range a b v l) = length l.
Proof. apply length_mapi. Qed.
Lemma nth_assign_range {A} a b (v d : A) l j : j < length l ->
  nth j (assign_range a b v l) d = if ((a <=? j) && (j <? b)) then v else nth j l d.
Proof. intros H. unfold assign_range. now rewrite nth_mapi with (d := d). Qed.

Lemma in_where_from {A} (p : A -> bool) l k i d : In i (where_from k p l) <-> k <= i < k + length l /\ p (nth (i - k) l d) = true.
Proof.
  revert k; induction l as [|a l IH]; intros k; cbn [where_from length].
  - split; [easy|]. intros [H _]. lia.
  - assert (E : In i (where_from (S k) p l) <-> S k <= i < k + S (length l) /\ p (nth (i - k) (a :: l) d) = true).
    { rewrite IH. split; intros [H1 H2]; (split; [lia|]); replace (i - k) with (S (i - S k)) in * by lia; exact H2. }
    destruct (p a) eqn:Ea.
    + split.
      * intros [<-|H]; [rewrite Nat.sub_diag; cbn; split; [lia|assumption]|]. apply E in H. split; [lia|apply H].
      * intros [H1 H2]. destruct (Nat.eq_dec k i) as [->|N]; [now left|right]. apply E. split; [lia|assumption].
    + rewrite E. split; intros [H1 H2]; (split; [|assumption]); [lia|]. destruct (Nat.eq_dec k i) as [->|N]; [|lia].
      rewrite Nat.sub_diag in H2. cbn in H2. congruence.
Qed.
Lemma in_np_where {A} (p : A -> bool) l i d : In i (np_where p l) <-> i < length l /\ p (nth i l d) = true.
Proof. unfold np_where. rewrite in_where_from with (d := d), Nat.sub_0_r. intuition lia. Qed.

Lemma list_ext_nth {A} (l m : list A) d : length l = length m -> (forall i, i < length l -> nth i l d = nth i m d) -> l = m.
Proof. intros L H. apply nth_ext with (d := d) (d' := d); assumption. Qed.

Lemma count_ge_two {A} (p : A -> bool) l d : 2 <= count p l <->
  exists i j, i < j < length l /\ p (nth i l d) = true /\ p (nth j l d) = true.
Proof.
  unfold count. induction l as [|a l IH]; cbn [filter length].
  - split; [cbn; lia|]. intros (i & j & H & _). lia.
  - assert (One : forall m : list A, 1 <= length (filter p m) <-> exists j, j < length m /\ p (nth j m d) = true).
    { intros m. destruct (filter p m) as [|b f] eqn:Ef; cbn [length].
      - split; [lia|]. intros (j & Hj & Hp). assert (In (nth j m d) (filter p m)) by (apply filter_In; split; [now apply nth_In|assumption]).
        now rewrite Ef in H.
      - split; [|lia]. intros _. assert (Hb : In b (filter p m)) by (rewrite Ef; now left). apply filter_In in Hb. destruct Hb as [Hb Hp].
        apply In_nth with (d := d) in Hb. destruct Hb as (j & Hj & <-). eauto. }
    destruct (p a) eqn:Ea; cbn [length].
    + split.
      * intros H. destruct (proj1 (One l) ltac:(lia)) as (j & Hj & Hp). exists 0, (S j). cbn. split; [lia|auto].
      * intros (i & j & Hij & _ & Hp). destruct j as [|j]; [lia|]. assert (1 <= length (filter p l)); [|lia].
        apply One. exists j. split; [lia|exact Hp].
    + rewrite IH. split; intros (i & j & Hij & H1 & H2).
      * exists (S i), (S j). split; [lia|auto].
      * destruct i as [|i]; [cbn in H1; congruence|]. destruct j as [|j]; [lia|]. exists i, j. split; [lia|auto].
Qed.
