(** C33 and C34: simulation tables *)
From Verif Require Import Base McModel McSpec.
Local Open Scope nat_scope.

(** ---------------- C33 ---------------- *)
Fixpoint pos (x : Z) (a : list Z) : option nat :=
  match a with [] => None | y :: a => if (y =? x)%Z then Some 0 else option_map S (pos x a) end.
Lemma pos_some x a p : pos x a = Some p -> nth_error a p = Some x.
Proof. revert p. induction a as [|y a IH]; intros p; cbn; [discriminate|]. destruct (Z.eqb_spec y x) as [->|]; [intros H; injection H as <-; reflexivity|]. destruct (pos x a); [|discriminate]. intros H. injection H as <-. now apply IH. Qed.
Lemma pos_in x a : In x a -> exists p, pos x a = Some p.
Proof. induction a as [|y a IH]; cbn; [easy|]. destruct (Z.eqb_spec y x) as [->|]; [eauto|]. intros [E|H]; [easy|]. destruct (IH H) as (p & ->). now exists (S p). Qed.

Lemma unique_from_spec seen l : NoDup (unique_from seen l) /\ forall x, In x (unique_from seen l) <-> In x l /\ ~ In x seen.
Proof.
  revert seen. induction l as [|a l IH]; intros seen; cbn; [split; [constructor|tauto]|]. destruct (existsb (Z.eqb a) seen) eqn:E.
  - destruct (IH seen) as [I1 I2]. split; [assumption|]. intros x. rewrite I2. apply existsb_exists in E. destruct E as (b & Hb & E). apply Z.eqb_eq in E. subst b. split; [tauto|intros [[->|H] K]; easy].
  - destruct (IH (a :: seen)) as [I1 I2]. split.
    + constructor; [|assumption]. intros H. apply I2 in H. destruct H as [_ H]. apply H. now left.
    + intros x. cbn. rewrite I2. cbn. split.
      * intros [<-|[H1 H2]]; [|tauto]. split; [now left|]. intros H. assert (existsb (Z.eqb a) seen = true); [|congruence]. apply existsb_exists. exists a. split; [assumption|apply Z.eqb_refl].
      * intros [[->|H1] H2]; [now left|]. destruct (Z.eq_dec a x); [now left|right; split; [assumption|intros [|]; easy]].
Qed.
Lemma unique_from_app seen l m : unique_from seen (l ++ m) = unique_from seen l ++ unique_from (rev l ++ seen) m.
Proof.
  revert seen. induction l as [|a l IH]; intros seen; cbn; [reflexivity|]. destruct (existsb (Z.eqb a) seen) eqn:E.
  - rewrite IH. f_equal. apply existsb_exists in E. destruct E as (b & Hb & Eb). apply Z.eqb_eq in Eb. subst b.
    rewrite <- app_assoc. cbn. assert (S : forall x, In x (rev l ++ seen) <-> In x (rev l ++ a :: seen)) by (intros x; rewrite !in_app_iff; cbn; split; [tauto|intros [H|[->|H]]; auto]).
    clear IH. revert S. generalize (rev l ++ seen) (rev l ++ a :: seen). intros s1 s2 S. clear l Hb seen a. revert s1 s2 S. induction m as [|c m IH]; intros s1 s2 S; [reflexivity|]. cbn.
    assert (Ec : existsb (Z.eqb c) s1 = existsb (Z.eqb c) s2).
    { apply eq_true_iff_eq. rewrite !existsb_exists. split; intros (x & Hx & Ex); exists x; (split; [apply S; assumption|assumption]). }
    rewrite Ec. destruct (existsb (Z.eqb c) s2); [now apply IH|]. f_equal. apply IH. intros x. cbn. rewrite S. tauto.
  - cbn. f_equal. rewrite IH, <- app_assoc. reflexivity.
Qed.
Lemma unique_appear a l : appear a l -> unique l = a.
Proof.
  unfold unique. induction 1 as [|a l x H IH Hx|a l x H IH Hx]; [reflexivity|..]; rewrite unique_from_app, IH, app_nil_r; cbn.
  - destruct (existsb (Z.eqb x) (rev l)) eqn:E; [|reflexivity]. exfalso. apply existsb_exists in E. destruct E as (y & Hy & E). apply Z.eqb_eq in E. subst y. apply Hx. now apply in_rev.
  - destruct (existsb (Z.eqb x) (rev l)) eqn:E; [apply app_nil_r|]. exfalso. assert (existsb (Z.eqb x) (rev l) = true); [|congruence]. apply existsb_exists. exists x. split; [now apply -> in_rev|apply Z.eqb_refl].
Qed.
Lemma appear_spec a l : appear a l -> NoDup a /\ forall x, In x a <-> In x l.
Proof. intros H. apply unique_appear in H. subst a. destruct (unique_from_spec [] l) as [U1 U2]. split; [exact U1|]. intros x. unfold unique. rewrite U2. cbn. tauto. Qed.

Section Merge.
  Context {R : Type}.

  Definition at_pos (first : Z) (a : list Z) (i : Z) : Z := match pos i a with Some p => (first + Z.of_nat p)%Z | None => i end.

  Lemma replace_all_spec a first (l : list (R * Z)) : NoDup a -> (forall i j x, i < j -> nth_error a j = Some x -> (first + Z.of_nat i <> x)%Z) ->
    replace_all a first l = map (fun '(r, i) => (r, at_pos first a i)) l.
  Proof.
    revert first l. induction a as [|o a IH]; intros first l N H.
    - cbn. unfold at_pos. cbn. symmetry. rewrite <- (map_id l) at 2. apply map_ext. now intros [r i].
    - cbn [replace_all]. inversion N as [|? ? N1 N2]; subst. rewrite IH; [|assumption|].
      + unfold replace. rewrite map_map. apply map_ext. intros [r i]. f_equal. unfold at_pos. cbn [pos]. rewrite (Z.eqb_sym o i). destruct (Z.eqb_spec i o) as [->|Hio].
        * destruct (pos first a) as [p|] eqn:E; [|lia]. exfalso. apply pos_some in E. specialize (H 0 (S p) first ltac:(lia) E). lia.
        * destruct (pos i a); cbn; [lia|reflexivity].
      + intros i j x Hij Hj. specialize (H (S i) (S j) x ltac:(lia) Hj). lia.
  Qed.

  (** what becomes of a row: the same contents, and the number [first + p] of the file at place [p] of [a] *)
  Definition numbered (first : Z) (a : list Z) (old new : R * Z) : Prop :=
    fst new = fst old /\ exists p, nth_error a p = Some (snd old) /\ snd new = (first + Z.of_nat p)%Z.

  Lemma renumber_spec first t a : appear a (map snd (rows_of t)) -> (forall i j x, i < j -> nth_error a j = Some x -> (first + Z.of_nat i <> x)%Z) ->
    Forall2 (numbered first a) (rows_of t) (renumber first t).
  Proof.
    intros A H. destruct t as [l|l]; cbn [rows_of renumber] in *.
    - rewrite (unique_appear _ _ A). destruct (appear_spec _ _ A) as [N S]. rewrite (replace_all_spec a first l N H).
      assert (G : forall m, (forall x, In x (map snd m) -> In x a) -> Forall2 (numbered first a) m (map (fun '(r, i) => (r, at_pos first a i)) m)).
      { induction m as [|[r i] m IH]; intros Hm; [constructor|]. cbn. constructor; [|apply IH; intros; apply Hm; now right]. split; [reflexivity|]. cbn. destruct (pos_in i a) as (p & Hp); [apply Hm; now left|]. exists p. split; [now apply pos_some|]. unfold at_pos. now rewrite Hp. }
      apply G. intros x Hx. now apply S.
    - destruct (appear_spec _ _ A) as [N S]. assert (Ha : l <> [] -> nth_error a 0 = Some 0%Z).
      { intros Hl. destruct l as [|r l]; [easy|]. assert (S0 : forall x, In x a -> x = 0%Z).
        { intros x Hx. apply S in Hx. apply in_map_iff in Hx. destruct Hx as (y & <- & Hy). apply in_map_iff in Hy. destruct Hy as (z & <- & _). reflexivity. }
        destruct a as [|x a]; [exfalso; assert (K : In 0%Z []) by (apply S; now left); destruct K|]. cbn. f_equal. apply S0. now left. }
      clear A S H. induction l as [|r l IH]; [constructor|]. cbn. constructor; [|apply IH; intros _; apply Ha; discriminate]. split; [reflexivity|]. exists 0. split; [apply Ha; discriminate|cbn; lia].
  Qed.

  Lemma write_tables_spec first (h : mcfile R) (d : list (mckind * mctable R)) (c m : mctable R) : tables_of Configuration d = [c] -> tables_of EventMapping d = [m] ->
    write_tables first h d = {| m_config := append (m_config h) (renumber first c); m_map := append (m_map h) (renumber first m) |}.
  Proof.
    assert (H0 : forall (d : list (mckind * mctable R)) h, tables_of Configuration d = [] -> tables_of EventMapping d = [] -> write_tables first h d = h).
    { clear. induction d as [|[[] t] d IH]; intros h; cbn; [reflexivity|discriminate|discriminate|exact (IH h)]. }
    assert (H1 : forall (d : list (mckind * mctable R)) h t, tables_of Configuration d = [t] -> tables_of EventMapping d = [] -> write_tables first h d = {| m_config := append (m_config h) (renumber first t); m_map := m_map h |}).
    { clear -H0. induction d as [|[[] t0] d IH]; intros h t; cbn; [discriminate| |discriminate|exact (IH h t)]. intros E1 E2. injection E1 as -> E1. now rewrite H0. }
    assert (H2 : forall (d : list (mckind * mctable R)) h t, tables_of Configuration d = [] -> tables_of EventMapping d = [t] -> write_tables first h d = {| m_config := m_config h; m_map := append (m_map h) (renumber first t) |}).
    { clear -H0. induction d as [|[[] t0] d IH]; intros h t; cbn; [discriminate|discriminate| |exact (IH h t)]. intros E1 E2. injection E2 as -> E2. now rewrite H0. }
    revert h. induction d as [|[[] t0] d IH]; intros h; cbn; [discriminate|..].
    - intros E1 E2. injection E1 as -> E1. now rewrite (H2 _ _ m).
    - intros E1 E2. injection E2 as -> E2. now rewrite (H1 _ _ c).
    - exact (IH h).
  Qed.

  Lemma forall2_last {A B} (P : A -> B -> Prop) l a m : Forall2 P (l ++ [a]) m -> exists m' b, m = m' ++ [b] /\ Forall2 P l m' /\ P a b.
  Proof. intros H. apply Forall2_app_inv_l in H. destruct H as (m1 & m2 & H1 & H2 & ->). inversion H2 as [|? b ? ? Hb Hn]; subst. inversion Hn; subst. eauto. Qed.

  (** the rows of the output, file by file *)
  Fixpoint expected (sel : mctable R * mctable R * list Z -> mctable R) (first : Z) (l : list (mctable R * mctable R * list Z)) (out : list (list (R * Z))) : Prop :=
    match l, out with
    | [], [] => True
    | (c, m, a) :: l, rows :: out => Forall2 (numbered first a) (rows_of (sel (c, m, a))) rows /\ expected sel (first + Z.of_nat (length a)) l out
    | _, _ => False
    end.

  Definition rows_in (t : option (list (R * Z))) : list (R * Z) := match t with Some l => l | None => [] end.
  Lemma write_all_spec first files l h : good_files first files l -> check_last_merge_index h = Ok (first - 1)%Z ->
    exists h' oc om, write_all h files = Ok h' /\ rows_in (m_config h') = rows_in (m_config h) ++ concat oc /\ rows_in (m_map h') = rows_in (m_map h) ++ concat om /\
      expected (fun x => fst (fst x)) first l oc /\ expected (fun x => snd (fst x)) first l om.
  Proof.
    revert first l h. induction files as [|d files IH]; intros first l h G C; cbn in G.
    - destruct l; [|easy]. exists h, [], []. cbn. rewrite !app_nil_r. repeat split.
    - destruct l as [|[[c m] a] l]; [easy|]. destruct G as [[G1 G2 G3 G4 G5 G6] G]. cbn [write_all]. unfold write_mctables. rewrite C. cbn [rbind]. replace (first - 1 + 1)%Z with first by lia.
      rewrite (write_tables_spec first h d c m G1 G2). cbn [rbind].
      pose proof (renumber_spec first c a G3 G6) as Rc. pose proof (renumber_spec first m a G4 G6) as Rm.
      destruct (IH (first + Z.of_nat (length a))%Z l {| m_config := append (m_config h) (renumber first c); m_map := append (m_map h) (renumber first m) |} G) as (h' & oc & om & E1 & E2 & E3 & E4 & E5).
      { unfold check_last_merge_index. cbn [m_map]. destruct G5 as (rows & r & x & a' & F1 & F2). rewrite F1 in Rm. apply forall2_last in Rm. destruct Rm as (rows' & [r' x'] & F3 & _ & F5 & p & F6 & F7). rewrite F3.
        destruct (appear_spec _ _ G4) as [N _]. cbn [snd] in F6, F7.
        assert (Hp : S p = length a). { rewrite F2 in N, F6 |- *. assert (F8 : nth_error (a' ++ [x]) (length a') = Some x) by (rewrite nth_error_app2, Nat.sub_diag by lia; reflexivity).
          assert (p = length a'); [|rewrite app_length; cbn; lia]. apply (proj1 (NoDup_nth_error _) N); [apply nth_error_Some; congruence|congruence]. }
        unfold append. destruct (m_map h) as [t|]; [rewrite app_assoc|]; rewrite rev_app_distr; cbn; rewrite F7; f_equal; lia. }
      exists h', (renumber first c :: oc), (renumber first m :: om). split; [exact E1|]. cbn [m_config m_map] in E2, E3.
      assert (Ha : forall t x, rows_in (append t x) = rows_in t ++ x) by (intros [t|] x; reflexivity). rewrite Ha in E2, E3.
      split; [rewrite E2; cbn [concat]; now rewrite app_assoc|]. split; [rewrite E3; cbn [concat]; now rewrite app_assoc|]. cbn [expected]. repeat split; assumption.
  Qed.
End Merge.

(** the numbers of different files are different *)
Fixpoint start_of (l : list (list Z)) (n : nat) : Z := match l, n with a :: l, S n => (Z.of_nat (length a) + start_of l n)%Z | _, _ => 0%Z end.
Lemma start_bound l n a : nth_error l n = Some a -> forall n' a', n < n' -> nth_error l n' = Some a' -> (start_of l n + Z.of_nat (length a) <= start_of l n')%Z.
Proof.
  revert n. induction l as [|b l IH]; intros n H n' a' Hn H'; [destruct n; discriminate|]. destruct n as [|n], n' as [|n']; try lia; cbn in *.
  - injection H as ->. assert (0 <= start_of l n')%Z; [|lia]. clear. revert n'. induction l as [|c l IH]; intros [|n]; cbn; try lia. specialize (IH n). lia.
  - specialize (IH n H n' a' ltac:(lia) H'). lia.
Qed.

(** merging files: with [l] the tables and the indices of each, every row keeps its contents, and gets a number that depends only on its file and its
    old index, the same in both tables; different files or old indices have different numbers *)
Theorem C33_merged_files {R} (files : list (list (mckind * mctable R))) l :
  good_files 0 files l ->
  exists h number, write_all new_file files = Ok h /\
    (forall n n' c m a c' m' a' x x', nth_error l n = Some (c, m, a) -> nth_error l n' = Some (c', m', a') -> In x a -> In x' a' ->
       number n x = number n' x' -> n = n' /\ x = x') /\
    (exists oc, rows_in (m_config h) = concat oc /\ length oc = length l /\
       forall n c m a rows, nth_error l n = Some (c, m, a) -> nth_error oc n = Some rows -> rows = map (fun '(r, x) => (r, number n x)) (rows_of c)) /\
    (exists om, rows_in (m_map h) = concat om /\ length om = length l /\
       forall n c m a rows, nth_error l n = Some (c, m, a) -> nth_error om n = Some rows -> rows = map (fun '(r, x) => (r, number n x)) (rows_of m)).
Proof.
  intros G. destruct (write_all_spec 0 files l (@new_file R) G) as (h & oc & om & E1 & E2 & E3 & E4 & E5); [reflexivity|].
  set (number := fun n x => (start_of (map snd l) n + match pos x (nth n (map snd l) []) with Some p => Z.of_nat p | None => 0 end)%Z).
  assert (Hnd : forall n c m a, nth_error l n = Some (c, m, a) -> NoDup a).
  { clear -G. revert files G. generalize 0%Z. induction l as [|[[c0 m0] a0] l IH]; intros first files G n c m a H; [destruct n; discriminate|]. destruct files as [|d files]; [easy|]. destruct G as [G1 G]. destruct n as [|n]; cbn in H.
    - injection H as -> -> ->. apply (appear_spec _ _ (g_config_indices _ _ _ _ _ G1)).
    - eapply IH; eassumption. }
  assert (Hex : forall sel first l0 (o : list (list (R * Z))), expected sel first l0 o -> length o = length l0 /\
     forall n c m a rows, nth_error l0 n = Some (c, m, a) -> nth_error o n = Some rows -> Forall2 (numbered (first + start_of (map snd l0) n) a) (rows_of (sel (c, m, a))) rows).
  { clear. intros sel first l0. revert first. induction l0 as [|[[c0 m0] a0] l0 IH]; intros first o H; destruct o as [|rows0 o]; cbn in H; try easy; [split; [reflexivity|intros [|]; discriminate]|].
    destruct H as [H1 H2]. destruct (IH _ _ H2) as [I1 I2]. split; [cbn; now rewrite I1|]. intros [|n] c m a rows Hl Ho; cbn in *.
    - injection Hl as -> -> ->. injection Ho as ->. now rewrite Z.add_0_r.
    - specialize (I2 n c m a rows Hl Ho). replace (first + (Z.of_nat (length a0) + start_of (map snd l0) n))%Z with (first + Z.of_nat (length a0) + start_of (map snd l0) n)%Z by lia. exact I2. }
  assert (Hnum : forall sel o, expected sel 0 l o -> length o = length l /\ forall n c m a rows, nth_error l n = Some (c, m, a) -> nth_error o n = Some rows -> rows = map (fun '(r, x) => (r, number n x)) (rows_of (sel (c, m, a)))).
  { intros sel o H. destruct (Hex _ _ _ _ H) as [H1 H2]. split; [assumption|]. intros n c m a rows Hl Ho. specialize (H2 n c m a rows Hl Ho). specialize (Hnd n c m a Hl).
    assert (Ea : nth n (map snd l) [] = a) by (apply nth_error_nth; now rewrite (map_nth_error _ _ _ Hl)).
    clear Ho.     induction H2 as [|[r x] [r' x'] old new (N1 & p & N2 & N3) H2 IH]; [reflexivity|]. cbn [fst snd] in *. cbn [map]. f_equal; [|exact IH]. subst r' x'. f_equal. unfold number. rewrite Ea.
    destruct (pos_in x a) as (q & Hq); [eapply nth_error_In, N2|]. rewrite Hq. apply pos_some in Hq. assert (p = q) by (apply (proj1 (NoDup_nth_error _) Hnd); [apply nth_error_Some; congruence|congruence]). subst q. lia. }
  exists h, number. split; [exact E1|]. split; [|split; [exists oc; split; [exact E2|exact (Hnum _ _ E4)]|exists om; split; [exact E3|exact (Hnum _ _ E5)]]].
  intros n n' c m a c' m' a' x x' Hl Hl' Hx Hx' E. unfold number in E.
  assert (Ea : nth_error (map snd l) n = Some a) by (now rewrite (map_nth_error _ _ _ Hl)). assert (Ea' : nth_error (map snd l) n' = Some a') by (now rewrite (map_nth_error _ _ _ Hl')).
  rewrite (nth_error_nth _ _ _ Ea), (nth_error_nth _ _ _ Ea') in E. destruct (pos_in x a Hx) as (p & Hp), (pos_in x' a' Hx') as (p' & Hp'). rewrite Hp, Hp' in E. apply pos_some in Hp, Hp'.
  assert (Hpl : p < length a) by (apply nth_error_Some; congruence). assert (Hpl' : p' < length a') by (apply nth_error_Some; congruence).
  destruct (Nat.lt_trichotomy n n') as [H|[H|H]].
  - pose proof (start_bound _ _ _ Ea _ _ H Ea'). lia.
  - subst n'. split; [reflexivity|]. assert (a' = a) by congruence. subst a'. assert (p = p') by lia. subst p'. congruence.
  - pose proof (start_bound _ _ _ Ea' _ _ H Ea). lia.
Qed.
Print Assumptions C33_merged_files.

(** two files never merged before, then one that is itself the merge of two *)
Definition ex_files : list (list (mckind * mctable nat)) :=
  [[(Configuration, NotIndexed [100; 101]); (EventMapping, NotIndexed [1; 2])];
   [(Configuration, NotIndexed [200]); (OtherTable, NotIndexed [9]); (EventMapping, NotIndexed [3])];
   [(Configuration, Indexed [(300, 0%Z); (301, 1%Z)]); (EventMapping, Indexed [(4, 0%Z); (5, 0%Z); (6, 1%Z)])]].
Definition ex_tables : list (mctable nat * mctable nat * list Z) :=
  [(NotIndexed [100; 101], NotIndexed [1; 2], [0%Z]); (NotIndexed [200], NotIndexed [3], [0%Z]);
   (Indexed [(300, 0%Z); (301, 1%Z)], Indexed [(4, 0%Z); (5, 0%Z); (6, 1%Z)], [0; 1]%Z)].
Example C33_example : good_files 0 ex_files ex_tables /\ exists h, write_all new_file ex_files = Ok h /\
  m_config h = Some [(100, 0%Z); (101, 0%Z); (200, 1%Z); (300, 2%Z); (301, 3%Z)] /\ m_map h = Some [(1, 0%Z); (2, 0%Z); (3, 1%Z); (4, 2%Z); (5, 2%Z); (6, 3%Z)].
Proof.
  assert (A1 : forall x : Z, appear [x] [x]) by (intros x; apply (ap_new [] [] x); [constructor|easy]).
  assert (A2 : forall x : Z, appear [x] [x; x]) by (intros x; apply (ap_old [x] [x] x); [apply A1|now left]).
  split; [|eexists; split; [reflexivity|]; split; reflexivity]. cbn [ex_files ex_tables good_files]. repeat split; cbn; try apply A1; try apply A2.
  - exists [(1, 0%Z)], 2, 0%Z, []. split; reflexivity.
  - intros i [|[|j]] x Hij Hj; [lia|discriminate|discriminate].
  - exists [], 3, 0%Z, []. split; reflexivity.
  - intros i [|[|j]] x Hij Hj; [lia|discriminate|discriminate].
  - apply (ap_new [0%Z] [0%Z]); [apply A1|intros [E|[]]; discriminate].
  - apply (ap_new [0%Z] [0; 0]%Z); [apply A2|intros [E|[E|[]]]; discriminate].
  - exists [(4, 0%Z); (5, 0%Z)], 6, 1%Z, [0%Z]. split; reflexivity.
  - intros i [|[|[|j]]] x Hij Hj; try lia; try discriminate. injection Hj as <-. assert (i = 0) by lia. subst. cbn. lia.
Qed.

(** a merged file after a single one: its two files become one *)
Theorem C33_merged_file_second_refuted : exists (files : list (list (mckind * mctable nat))) h,
  files = [[(Configuration, NotIndexed [100]); (EventMapping, NotIndexed [1])];
           [(Configuration, Indexed [(300, 0%Z); (301, 1%Z)]); (EventMapping, Indexed [(4, 0%Z); (6, 1%Z)])]] /\
  write_all new_file files = Ok h /\ m_map h = Some [(1, 0%Z); (4, 2%Z); (6, 2%Z)].
Proof. eexists _, _. split; [reflexivity|]. split; reflexivity. Qed.
Print Assumptions C33_merged_file_second_refuted.
(** when no event of the first of two merged files is copied, its configuration is numbered as the events of the second *)
Theorem C33_filtered_events_refuted : exists (files : list (list (mckind * mctable nat))) h,
  files = [[(Configuration, Indexed [(300, 0%Z); (301, 1%Z)]); (EventMapping, Indexed [(6, 1%Z)])]] /\
  write_all new_file files = Ok h /\ m_config h = Some [(300, 0%Z); (301, 1%Z)] /\ m_map h = Some [(6, 0%Z)].
Proof. eexists _, _. split; [reflexivity|]. split; [reflexivity|]. split; reflexivity. Qed.
Print Assumptions C33_filtered_events_refuted.
(** a file without events to copy: the next one takes its number, or cannot be copied when nothing was copied before *)
Theorem C33_file_without_events_refuted :
  (exists h, write_all new_file [[(Configuration, NotIndexed [100]); (EventMapping, NotIndexed [1])]; [(Configuration, NotIndexed [200]); (EventMapping, NotIndexed [])]; [(Configuration, NotIndexed [300]); (EventMapping, NotIndexed [3])]] = Ok h /\
     m_config h = Some [(100, 0%Z); (200, 1%Z); (300, 1%Z)]) /\
  write_all new_file [[(Configuration, NotIndexed [200]); (EventMapping, NotIndexed [])]; [(Configuration, NotIndexed [300]); (EventMapping, NotIndexed [3])]] = Err IndexError.
Proof. split; [eexists; split; reflexivity|reflexivity]. Qed.
Print Assumptions C33_file_without_events_refuted.

(** ---------------- C34 ---------------- *)
Section Old.
  Context {R : Type}.
  Definition first_reach (ext : list extent) (i : nat) : option extent := find (fun x => (Z.of_nat i <=? x_last x)%Z) ext.
  Lemma first_reach_owner ext i x : first_reach ext i = Some x -> owner ext i (x_event x).
  Proof.
    unfold first_reach, owner. induction ext as [|y ext IH]; cbn; [discriminate|]. destruct (Z.leb_spec (Z.of_nat i) (x_last y)).
    - intros E. injection E as ->. exists 0, x. split; [reflexivity|]. split; [reflexivity|]. split; [assumption|]. intros k' x' Hk; lia.
    - intros E. destruct (IH E) as (k & z & H1 & H2 & H3 & H4). exists (S k), z. split; [assumption|]. split; [assumption|]. split; [assumption|]. intros [|k'] x' Hk Hx; cbn in Hx; [injection Hx as <-; lia|]. apply (H4 k'); [lia|assumption].
  Qed.
  Lemma at_end ext i x : in_order ext -> In x ext -> x_last x = Z.of_nat i ->
    filter (fun x => (x_last x =? Z.of_nat i)%Z) ext = [x] /\ first_reach ext i = Some x.
  Proof.
    unfold in_order, first_reach. induction 1 as [|y ext S IH Hy]; [easy|]. rewrite Forall_forall in Hy. intros [->|Hin] E.
    - cbn. rewrite E, Z.eqb_refl, Z.leb_refl. split; [|reflexivity]. f_equal. clear IH S. induction ext as [|z ext IH]; [reflexivity|]. cbn.
      destruct (Hy z (or_introl eq_refl)) as [K|K]; [|lia]. destruct (Z.eqb_spec (x_last z) (Z.of_nat i)); [lia|]. apply IH. intros; apply Hy; now right.
    - cbn. destruct (IH Hin E) as [I1 I2]. destruct (Hy x Hin) as [K|K]; [|lia]. destruct (Z.eqb_spec (x_last y) (Z.of_nat i)); [lia|]. destruct (Z.leb_spec (Z.of_nat i) (x_last y)); [lia|]. split; assumption.
  Qed.
  Lemma not_end ext i : (forall x, In x ext -> x_last x <> Z.of_nat i) -> filter (fun x => (x_last x =? Z.of_nat i)%Z) ext = [] /\ first_reach ext i = first_reach ext (S i).
  Proof.
    unfold first_reach. induction ext as [|y ext IH]; intros H; [split; reflexivity|]. cbn [filter find]. pose proof (H y (or_introl eq_refl)). destruct IH as [I1 I2]; [intros; apply H; now right|].
    destruct (Z.eqb_spec (x_last y) (Z.of_nat i)); [easy|]. split; [assumption|]. rewrite I2. destruct (Z.leb_spec (Z.of_nat i) (x_last y)), (Z.leb_spec (Z.of_nat (S i)) (x_last y)); try lia; reflexivity.
  Qed.

  Lemma old_rows ext (hits : list R) i : in_order ext -> hits <> [] -> (exists x, In x ext /\ x_last x = Z.of_nat (i + length hits) - 1)%Z ->
    exists evs, bfill (merge_from ext i hits) = combine hits (map Some evs) /\ length evs = length hits /\
      forall k e, nth_error evs k = Some e -> exists x, first_reach ext (i + k) = Some x /\ x_event x = e.
  Proof.
    intros S. revert i. induction hits as [|r hits IH]; intros i Hn Hx; [easy|]. clear Hn. cbn [merge_from].
    assert (Hc : (exists x, In x ext /\ x_last x = Z.of_nat i) \/ forall x, In x ext -> x_last x <> Z.of_nat i).
    { clear. induction ext as [|y ext IH]; [right; easy|]. destruct (Z.eq_dec (x_last y) (Z.of_nat i)); [left; exists y; split; [now left|assumption]|]. destruct IH as [(x & H & E)|H]; [left; exists x; split; [now right|assumption]|right; intros x [<-|K]; [assumption|now apply H]]. }
    destruct hits as [|r2 hits].
    - destruct Hx as (x & Hin & E). cbn [length] in E. destruct (at_end ext i x S Hin ltac:(lia)) as [F1 F2]. unfold merge_row. rewrite F1. cbn. exists [x_event x]. split; [reflexivity|]. split; [reflexivity|].
      intros [|[|k]] e H; try discriminate. injection H as <-. rewrite Nat.add_0_r. eauto.
    - destruct (IH (Datatypes.S i)) as (evs & E1 & E2 & E3); [discriminate|destruct Hx as (x & Hin & E); exists x; split; [assumption|rewrite E; cbn [length]; lia]|].
      destruct Hc as [(x & Hin & E)|Hno].
      + destruct (at_end ext i x S Hin E) as [F1 F2]. unfold merge_row. rewrite F1. cbn [map app bfill]. rewrite E1. exists (x_event x :: evs). split; [reflexivity|]. split; [cbn; now rewrite E2|].
        intros [|k] e H; cbn in H; [injection H as <-; rewrite Nat.add_0_r; eauto|]. destruct (E3 k e H) as (y & Hy). rewrite Nat.add_succ_comm in Hy. eauto.
      + destruct (not_end ext i Hno) as [F1 F2]. unfold merge_row. rewrite F1. cbn [app bfill]. rewrite E1. destruct evs as [|e0 evs]; [discriminate|]. exists (e0 :: e0 :: evs). split; [reflexivity|]. split; [cbn in *; now rewrite E2|].
        intros [|k] e H; cbn in H; [injection H as <-; rewrite Nat.add_0_r, F2; destruct (E3 0 e0 eq_refl) as (y & Hy); rewrite Nat.add_0_r in Hy; eauto|]. destruct (E3 k e H) as (y & Hy). rewrite Nat.add_succ_comm in Hy. eauto.
  Qed.

  Lemma bfill_none ext (hits : list R) i : hits <> [] -> (forall x, In x ext -> x_last x <> Z.of_nat (i + length hits) - 1)%Z ->
    exists l r, bfill (merge_from ext i hits) = l ++ [(r, None)].
  Proof.
    revert i. induction hits as [|r hits IH]; intros i Hn Hx; [easy|]. clear Hn. cbn [merge_from].
    assert (Hb : forall a b : list (R * option Z), (exists l r, bfill b = l ++ [(r, None)]) -> exists l r, bfill (a ++ b) = l ++ [(r, None)]).
    { clear. induction a as [|[r [e|]] a IH]; intros b Hb; [exact Hb|..]; cbn; destruct (IH b Hb) as (l & r' & ->); [exists ((r, Some e) :: l), r'; reflexivity|eexists (_ :: l), r'; reflexivity]. }
    destruct hits as [|r2 hits].
    - cbn [length] in Hx. assert (F : filter (fun x => (x_last x =? Z.of_nat i)%Z) ext = []) by (apply not_end; intros x Hin E; apply (Hx x Hin); lia). unfold merge_row. rewrite F. cbn. exists [], r. reflexivity.
    - apply Hb, IH; [discriminate|]. intros x Hin E. apply (Hx x Hin). rewrite E. cbn [length]. lia.
  Qed.
End Old.

(** every row comes back once, in order, under the event whose extent contains it *)
Theorem C34_rows_attributed {R} (ext : list extent) (hits : list R) :
  in_order ext -> (hits = [] \/ exists x, In x ext /\ x_last x = Z.of_nat (length hits) - 1)%Z ->
  exists out, load_dfold ext hits = Ok out /\ map fst out = hits /\ forall i r e, nth_error out i = Some (r, e) -> owner ext i e.
Proof.
  intros S Hx. destruct hits as [|r0 hits].
  - exists []. split; [reflexivity|]. split; [reflexivity|]. intros [|]; discriminate.
  - destruct Hx as [Hx|Hx]; [discriminate|]. destruct (old_rows ext (r0 :: hits) 0 S ltac:(discriminate) Hx) as (evs & E1 & E2 & E3). set (h := r0 :: hits) in *.
    exists (combine h evs). unfold load_dfold. rewrite E1. split; [|split].
    + clear -E2. unfold to_int. revert evs E2. induction h as [|r h IH]; intros [|e evs] E; try discriminate; [reflexivity|]. cbn. rewrite IH by (cbn in E; lia). reflexivity.
    + clear -E2. revert evs E2. induction h as [|r h IH]; intros [|e evs] E; try discriminate; [reflexivity|]. cbn. f_equal. apply IH. cbn in E. lia.
    + intros i r e H. assert (He : nth_error evs i = Some e).
      { clear -H. revert evs i H. induction h as [|a h IH]; intros [|b evs] [|i] H; try discriminate; cbn in *; [congruence|now apply (IH evs i)]. }
      destruct (E3 i e He) as (x & F & <-). now apply first_reach_owner.
Qed.
Print Assumptions C34_rows_attributed.

(** when the last row belongs to no event the file cannot be loaded *)
Theorem C34_rows_without_event {R} (ext : list extent) (hits : list R) :
  hits <> [] -> (forall x, In x ext -> x_last x <> Z.of_nat (length hits) - 1)%Z -> load_dfold ext hits = Err ValueError.
Proof.
  intros Hn Hx. destruct (bfill_none ext hits 0 Hn Hx) as (l & r & E). unfold load_dfold. rewrite E. unfold to_int. clear. induction l as [|[a [e|]] l IH]; [reflexivity|cbn; now rewrite IH|reflexivity].
Qed.
Print Assumptions C34_rows_without_event.

Definition ext (e l : Z) : extent := {| x_event := e; x_last := l |}.
Example C34_example : in_order [ext 7 (-1); ext 9 (-1); ext 3 1; ext 5 4] /\ load_dfold [ext 7 (-1); ext 9 (-1); ext 3 1; ext 5 4] [10; 11; 12; 13; 14] = Ok [(10, 3%Z); (11, 3%Z); (12, 5%Z); (13, 5%Z); (14, 5%Z)].
Proof. split; [|reflexivity]. unfold in_order, ext. repeat constructor; cbn; lia. Qed.
(** an event without hits gets a copy of the last hit of the event before it *)
Theorem C34_event_without_rows_refuted : exists out, load_dfold [ext 3 1; ext 4 1; ext 5 2] [10; 11; 12] = Ok out /\ out = [(10, 3%Z); (11, 3%Z); (11, 4%Z); (12, 5%Z)].
Proof. eexists. split; reflexivity. Qed.
Print Assumptions C34_event_without_rows_refuted.
