(** A pipeline whose components keep no memory of the items, except to count or collect them, is a plain loop over the items *)
From Coq Require Import List Bool Arith Permutation Lia.
Import ListNotations.
From Verif Require Import DataflowModel DataflowSpec DataflowProofs DataflowList.
Local Open Scope nat_scope.

Section Loop.
Context {item : Type}.
Notation node := (node item). Notation ev := (ev item).

(** what happens during the treatment of an item *)
Inductive happening := HEff (id : nat) (x : item) | HTick (id : nat) | HPass (id : nat) (b : bool) | HAcc (id : nat) (x : item).
Definition hid (h : happening) : nat := match h with HEff i _ | HTick i | HPass i _ | HAcc i _ => i end.

(** the treatment of one item, in direct style *)
Fixpoint treat (n : node) (x : item) : item * list happening * option exc :=
  match n with
  | NSink id f => (x, [HEff id x], f x)
  | NReduce id u a => (x, [HAcc id x], None)
  | NCount id => (x, [HTick id], None)
  | NMap f n => match f x with Raise e => (x, [], Some e) | Ret y => let '(_, h, e) := treat n y in (x, h, e) end
  | NUpd f n => match f x with Raise e => (x, [], Some e) | Ret y => treat n y end
  | NFilter p n => match p x with Raise e => (x, [], Some e) | Ret true => treat n x | Ret false => (x, [], None) end
  | NCFilter id p n => match p x with
                       | Raise e => (x, [], Some e)
                       | Ret true => let '(x', h, e) := treat n x in (x', HPass id true :: h, e)
                       | Ret false => (x, [HPass id false], None)
                       end
  | NSpy id f n => match f x with Some e => (x, [HEff id x], Some e) | None => let '(x', h, e) := treat n x in (x', HEff id x :: h, e) end
  | NBranch a n => let '(x', h, e) := treat a x in
                   match e with Some ex => (x', h, Some ex) | None => let '(x'', h', e') := treat n x' in (x'', h ++ h', e') end
  | NFork l => (fix go l x := match l with
                              | [] => (x, [], None)
                              | c :: l => let '(x', h, e) := treat c x in
                                          match e with Some ex => (x', h, Some ex) | None => let '(x'', h', e') := go l x' in (x'', h ++ h', e') end
                              end) l x
  | NFlat _ _ | NFlatUpd _ _ | NSlice _ _ => (x, [], None)
  end.
Definition treat_fork := fix go l x := match l with
                              | [] => (x, [], None)
                              | c :: l => let '(x', h, e) := treat c x in
                                          match e with Some ex => (x', h, Some ex) | None => let '(x'', h', e') := go l x' in (x'', h ++ h', e') end
                              end.

Fixpoint memoryless (n : node) : Prop :=
  match n with
  | NSink _ _ | NCount _ => True
  | NReduce _ u _ => forall a x, exists b, u a x = Ret b
  | NMap _ n | NUpd _ n | NFilter _ n | NCFilter _ _ n | NSpy _ _ n => memoryless n
  | NBranch a n => memoryless a /\ memoryless n
  | NFork l => (fix go l := match l with [] => True | c :: l => memoryless c /\ go l end) l
  | NFlat _ _ | NFlatUpd _ _ | NSlice _ _ => False
  end.

(** the loop, up to the first exception: what happens, items read, exception *)
Fixpoint loop (n : node) (xs : list item) : list happening * nat * option exc :=
  match xs with
  | [] => ([], 0, None)
  | x :: xs => let '(_, h, e) := treat n x in
               match e with Some ex => (h, 1, Some ex) | None => let '(h', k, e') := loop n xs in (h ++ h', S k, e') end
  end.

Definition ticks (id : nat) (h : list happening) : nat := length (filter (fun e => match e with HTick i => i =? id | _ => false end) h).
Definition passes (id : nat) (b : bool) (h : list happening) : nat := length (filter (fun e => match e with HPass i c => (i =? id) && eqb c b | _ => false end) h).
Definition accs (id : nat) (h : list happening) : list item := flat_map (fun e => match e with HAcc i x => if i =? id then [x] else [] | _ => [] end) h.
Definition effects (h : list happening) : list (nat * item) := flat_map (fun e => match e with HEff i x => [(i, x)] | _ => [] end) h.
Definition called (id : nat) (h : list happening) : list item := flat_map (fun e => match e with HEff i x => if i =? id then [x] else [] | _ => [] end) h.

Inductive kind := KCount | KPass | KAcc (u : item -> item -> res item) (a : item).
Fixpoint futures (n : node) : list (nat * kind) :=
  match n with
  | NSink _ _ => []
  | NReduce id u a => [(id, KAcc u a)]
  | NCount id => [(id, KCount)]
  | NMap _ n | NUpd _ n | NFlat _ n | NFlatUpd _ n | NFilter _ n | NSpy _ _ n | NSlice _ n => futures n
  | NCFilter id _ n => (id, KPass) :: futures n
  | NBranch a n => futures a ++ futures n
  | NFork l => flat_map futures l
  end.
Definition add (u : item -> item -> res item) (a x : item) : item := match u a x with Ret b => b | Raise _ => a end.
Definition value (h : list happening) (f : nat * kind) : nat * fres item :=
  (fst f, match snd f with KCount => RCount (ticks (fst f) h) | KPass => RPassed (passes (fst f) true h) (passes (fst f) false h) | KAcc u a => RAcc (fold_left (add u) (accs (fst f) h) a) end).

Definition effs (tr : list ev) : list (nat * item) := flat_map (fun e => match e with Eff i x => [(i, x)] | Fut _ _ => [] end) tr.
Definition futr (tr : list ev) : list (nat * fres item) := flat_map (fun e => match e with Eff _ _ => [] | Fut i r => [(i, r)] end) tr.
Lemma effs_app a b : effs (a ++ b) = effs a ++ effs b. Proof. apply flat_map_app. Qed.
Lemma futr_app a b : futr (a ++ b) = futr a ++ futr b. Proof. apply flat_map_app. Qed.
Lemma effects_app a b : effects (a ++ b) = effects a ++ effects b. Proof. apply flat_map_app. Qed.
Lemma accs_app id a b : accs id (a ++ b) = accs id a ++ accs id b. Proof. apply flat_map_app. Qed.
Lemma ticks_app id a b : ticks id (a ++ b) = ticks id a + ticks id b. Proof. unfold ticks. now rewrite filter_app, app_length. Qed.
Lemma passes_app id c a b : passes id c (a ++ b) = passes id c a + passes id c b. Proof. unfold passes. now rewrite filter_app, app_length. Qed.

Definition away (l : list nat) (h : list happening) : Prop := forall e, In e h -> ~ In (hid e) l.
Lemma away_none id h : away [id] h -> ticks id h = 0 /\ (forall b, passes id b h = 0) /\ accs id h = [].
Proof.
  intros H. induction h as [|e h IH]; [auto|]. destruct IH as (I1 & I2 & I3); [intros x Hx; apply H; now right|]. assert (N : hid e <> id) by (intros E; apply (H e); [now left|now left]).
  assert (B : hid e =? id = false) by now apply Nat.eqb_neq. unfold ticks, passes, accs in *. cbn. destruct e; cbn in *; rewrite ?B; cbn; auto.
Qed.

Fixpoint alive (n : node) (h : list happening) : St (den n) :=
  match n return St (den n) with
  | NSink _ _ => Some tt
  | NReduce id u a => Some (fold_left (add u) (accs id h) a)
  | NCount id => Some (ticks id h)
  | NMap f n => Some (alive n h)
  | NUpd f n => Some (alive n h)
  | NFlat f n => Some (alive n h)
  | NFlatUpd f n => Some (alive n h)
  | NFilter p n => Some (alive n h)
  | NCFilter id p n => Some (passes id true h, passes id false h, alive n h)
  | NSpy id f n => Some (alive n h)
  | NBranch a n => Some (alive a h, alive n h)
  | NFork l => Some ((fix go l : fork_st (map den l) := match l return fork_st (map den l) with [] => tt | c :: l => (alive c h, go l) end) l)
  | NSlice sp n => start (den (NSlice sp n))
  end.
Definition alive_fork (h : list happening) := fix go l : fork_st (map den l) := match l return fork_st (map den l) with [] => tt | c :: l => (alive c h, go l) end.

Lemma treat_ids n x : let '(_, h, _) := treat n x in forall e, In e h -> In (hid e) (ids n).
Proof.
  revert x. induction n using node_ind'; intros x; cbn [treat ids]; try (intros e Hin; cbn in Hin; tauto).
  - intros e [<-|[]]. now left.
  - intros e [<-|[]]. now left.
  - intros e [<-|[]]. now left.
  - destruct (f x) as [y|]; [|easy]. specialize (IHn y). destruct (treat n y) as [[? ?] ?]. exact IHn.
  - destruct (f x) as [y|]; [|easy]. apply IHn.
  - destruct (p x) as [[|]|]; [apply IHn|easy|easy].
  - destruct (p x) as [[|]|]; [|intros e [<-|[]]; now left|easy]. specialize (IHn x). destruct (treat n x) as [[? ?] ?]. intros e [<-|He]; [now left|right; auto].
  - destruct (f x) as [|]; [intros e' [<-|[]]; now left|]. specialize (IHn x). destruct (treat n x) as [[? ?] ?]. intros e [<-|He]; [now left|right; auto].
  - specialize (IHn1 x). destruct (treat n1 x) as [[x' h] [e|]]; [intros; apply in_or_app; auto|]. specialize (IHn2 x'). destruct (treat n2 x') as [[? h'] ?].
    intros e He. apply in_or_app. apply in_app_or in He. destruct He; auto.
  - change (let '(_, h, _) := treat_fork l x in forall e, In e h -> In (hid e) (flat_map ids l)). revert x. induction H as [|c l Hc _ IH]; intros x; [easy|]. cbn [treat_fork flat_map].
    specialize (Hc x). destruct (treat c x) as [[x' h] [e|]]; [intros; apply in_or_app; auto|]. specialize (IH x'). destruct (treat_fork l x') as [[? h'] ?].
    intros e He. apply in_or_app. apply in_app_or in He. destruct He; auto.
Qed.

Lemma alive_away n h h' : away (ids n) h' -> alive n (h ++ h') = alive n h.
Proof.
  induction n using node_ind'; cbn [ids alive]; intros A; try (rewrite IHn; [reflexivity|assumption]); try reflexivity.
  - rewrite accs_app. destruct (away_none _ _ A) as (_ & _ & ->). now rewrite app_nil_r.
  - rewrite ticks_app. destruct (away_none _ _ A) as (-> & _ & _). now rewrite Nat.add_0_r.
  - destruct (away_none id h') as (_ & B & _); [intros e He [E|[]]; apply (A e He); now left|]. rewrite !passes_app, !B, !Nat.add_0_r, IHn; [reflexivity|]. intros e He C. apply (A e He). now right.
  - rewrite IHn; [reflexivity|]. intros e He C. apply (A e He). now right.
  - rewrite IHn1, IHn2; [reflexivity| |]; intros e He C; apply (A e He), in_or_app; auto.
  - f_equal. change (alive_fork (h ++ h') l = alive_fork h l). cbn [ids] in A. induction H as [|c l Hc _ IH]; [reflexivity|]. cbn [alive_fork]. cbn [flat_map] in A.
    rewrite Hc, IH; [reflexivity| |]; intros e He C; apply (A e He), in_or_app; auto.
Qed.
Lemma futures_ids n f : In f (futures n) -> In (fst f) (ids n).
Proof.
  induction n using node_ind'; cbn [futures ids]; auto.
  - easy.
  - intros [<-|[]]. now left.
  - intros [<-|[]]. now left.
  - intros [<-|Hin]; [now left|right; auto].
  - intros Hin. right. auto.
  - intros Hin. apply in_or_app. apply in_app_or in Hin. destruct Hin; auto.
  - intros Hin. apply in_flat_map in Hin. destruct Hin as (c & Hc & Hin). apply in_flat_map. exists c. split; [assumption|]. rewrite Forall_forall in H. auto.
Qed.
Lemma value_away l h h' : (forall f, In f l -> away [fst f] h') -> map (value (h ++ h')) l = map (value h) l.
Proof.
  intros A. apply map_ext_in. intros [id k] Hin. destruct (away_none id h') as (B1 & B2 & B3); [apply (A _ Hin)|]. unfold value. cbn [fst snd].
  destruct k; rewrite ?ticks_app, ?passes_app, ?accs_app, ?B1, ?B2, ?B3, ?Nat.add_0_r, ?app_nil_r; reflexivity.
Qed.
Lemma values_away n h h' : away (ids n) h' -> map (value (h ++ h')) (futures n) = map (value h) (futures n).
Proof. intros A. apply value_away. intros f Hin e He [E|[]]. apply (A e He). rewrite <- E. now apply futures_ids. Qed.
Lemma values_away_fork l h h' : away (flat_map ids l) h' -> map (value (h ++ h')) (flat_map futures l) = map (value h) (flat_map futures l).
Proof. exact (values_away (NFork l) h h'). Qed.

Lemma close_alive n h : memoryless n -> effs (snd (close (den n) (alive n h))) = [] /\ Permutation (futr (snd (close (den n) (alive n h)))) (map (value h) (futures n)).
Proof.
  induction n using node_ind'; intros M; cbn [memoryless] in M; try contradiction; cbn [den alive close generator sink_m reduce_m count_m map_m upd_m filter_m cfilter_m spy_m branch_m fork_m snd futures map] in *.
  - split; [reflexivity|constructor].
  - split; [reflexivity|]. cbn. apply Permutation_refl.
  - split; [reflexivity|]. cbn. apply Permutation_refl.
  - apply IHn, M.
  - apply IHn, M.
  - apply IHn, M.
  - destruct (IHn M) as [E P]. rewrite effs_app, futr_app, E. split; [reflexivity|]. cbn [futr flat_map app value]. rewrite P. symmetry. apply Permutation_cons_append.
  - apply IHn, M.
  - destruct (IHn1 (proj1 M)) as [E1 P1]. destruct (IHn2 (proj2 M)) as [E2 P2]. rewrite effs_app, futr_app, E1, E2. split; [reflexivity|]. rewrite P1, P2, map_app. apply Permutation_app_comm.
  - change (effs (fork_close (map den l) (alive_fork h l)) = [] /\ Permutation (futr (fork_close (map den l) (alive_fork h l))) (map (value h) (flat_map futures l))).
    induction H as [|c l Hc _ IH]; [split; [reflexivity|constructor]|]. cbn [map alive_fork fork_close flat_map]. destruct (Hc (proj1 M)) as [E1 P1]. destruct (IH (proj2 M)) as [E2 P2].
    rewrite effs_app, futr_app, E1, E2, map_app, P1, P2. split; reflexivity.
Qed.

(** the step of the machine is the treatment of the item *)
Definition steps_ok (n : node) (h : list happening) (x : item) : Prop :=
  let '(x', evs, e) := treat n x in
  match e with
  | None => exists tr, send (den n) (alive n h) x = (alive n (h ++ evs), x', tr, None) /\ effs tr = effects evs /\ futr tr = []
  | Some ex => exists s tr, send (den n) (alive n h) x = (s, x', tr, Some ex) /\ snd (close (den n) s) = [] /\ effs tr = effects evs /\
                 Permutation (futr tr) (map (value (h ++ evs)) (futures n))
  end.

Ltac closed := cbn [close generator sink_m reduce_m count_m map_m upd_m filter_m cfilter_m spy_m branch_m fork_m den snd]; reflexivity.
Lemma treat_away n x l : apart l (ids n) -> let '(_, evs, _) := treat n x in away l evs.
Proof. intros A. pose proof (treat_ids n x) as H. destruct (treat n x) as [[? evs] ?]. intros e He C. apply (A _ C). auto. Qed.
Lemma apart_sym l m : apart l m -> apart m l.
Proof. intros A i Hi C. exact (A i C Hi). Qed.

Lemma send_alive n : forall h x, memoryless n -> NoDup (ids n) -> steps_ok n h x.
Proof.
  induction n using node_ind'; intros h x M N; cbn [memoryless] in M; try contradiction; unfold steps_ok; cbn [treat ids] in *.
  - (* sink *) destruct (f x) as [e|] eqn:E.
    + exists None, [Eff id x]. cbn [den sink_m generator send alive]. rewrite E. split; [reflexivity|]. split; [closed|]. split; [reflexivity|constructor].
    + exists [Eff id x]. cbn [den sink_m generator send alive]. rewrite E. auto.
  - (* reduce *) exists []. cbn [den reduce_m generator send alive]. set (acc := fold_left (add u) (accs id h) a). destruct (M acc x) as (b & E). rewrite E. split; [|split; reflexivity].
    rewrite accs_app, fold_left_app. fold acc. cbn. rewrite Nat.eqb_refl. cbn. unfold add. now rewrite E.
  - (* count *) exists []. split; [|split; reflexivity]. cbn. rewrite ticks_app. unfold ticks at 3. cbn. rewrite Nat.eqb_refl. cbn. now rewrite Nat.add_1_r.
  - (* map *) destruct (f x) as [y|e] eqn:E.
    + specialize (IHn h y M N). unfold steps_ok in IHn. destruct (treat n y) as [[y' evs] [ex|]].
      * destruct IHn as (s & tr & Es & Hc & He & Hp). exists None, (tr ++ []). cbn [den map_m generator send alive]. rewrite E, Es. cbn [snd]. rewrite Hc. split; [reflexivity|]. split; [closed|].
        rewrite app_nil_r. auto.
      * destruct IHn as (tr & Es & He & Hp). exists tr. cbn [den map_m generator send alive]. rewrite E, Es. auto.
    + exists None, (snd (close (den n) (alive n h))). cbn [den map_m generator send alive]. rewrite E. split; [reflexivity|]. split; [closed|]. rewrite app_nil_r. exact (close_alive n h M).
  - (* upd *) destruct (f x) as [y|e] eqn:E.
    + specialize (IHn h y M N). unfold steps_ok in IHn. destruct (treat n y) as [[y' evs] [ex|]].
      * destruct IHn as (s & tr & Es & Hc & He & Hp). exists None, (tr ++ []). cbn [den upd_m generator send alive]. rewrite E, Es. cbn [snd]. rewrite Hc. split; [reflexivity|]. split; [closed|].
        rewrite app_nil_r. auto.
      * destruct IHn as (tr & Es & He & Hp). exists tr. cbn [den upd_m generator send alive]. rewrite E, Es. auto.
    + exists None, (snd (close (den n) (alive n h))). cbn [den upd_m generator send alive]. rewrite E. split; [reflexivity|]. split; [closed|]. rewrite app_nil_r. exact (close_alive n h M).
  - (* filter *) destruct (p x) as [[|]|e] eqn:E.
    + specialize (IHn h x M N). unfold steps_ok in IHn. destruct (treat n x) as [[y' evs] [ex|]].
      * destruct IHn as (s & tr & Es & Hc & He & Hp). exists None, (tr ++ []). cbn [den filter_m generator send alive]. rewrite E, Es. cbn [snd]. rewrite Hc. split; [reflexivity|]. split; [closed|].
        rewrite app_nil_r. auto.
      * destruct IHn as (tr & Es & He & Hp). exists tr. cbn [den filter_m generator send alive]. rewrite E, Es. auto.
    + exists []. cbn [den filter_m generator send alive]. rewrite E, app_nil_r. auto.
    + exists None, (snd (close (den n) (alive n h))). cbn [den filter_m generator send alive]. rewrite E. split; [reflexivity|]. split; [closed|]. rewrite app_nil_r. exact (close_alive n h M).
  - (* count_filter *) inversion N as [|? ? Hid N']; subst. destruct (p x) as [[|]|e] eqn:E.
    + specialize (IHn (h ++ [HPass id true]) x M N'). unfold steps_ok in IHn. pose proof (treat_away n x [id]) as A. destruct (treat n x) as [[y' evs] e].
      assert (A' : away [id] evs) by (apply A; intros i [->|[]]; assumption). clear A.
      assert (A0 : away (ids n) [HPass id true]) by (intros e' [<-|[]]; exact Hid).
      rewrite (alive_away n h _ A0), <- !app_assoc in IHn. cbn [app] in IHn.
      assert (B : forall m, h ++ HPass id true :: m = (h ++ [HPass id true]) ++ m) by (intros; now rewrite <- app_assoc).
      assert (C1 : passes id true (h ++ HPass id true :: evs) = S (passes id true h)).
      { rewrite B, !passes_app. destruct (away_none _ _ A') as (_ & -> & _). unfold passes at 2. cbn. rewrite Nat.eqb_refl. cbn. lia. }
      assert (C2 : passes id false (h ++ HPass id true :: evs) = passes id false h).
      { rewrite B, !passes_app. destruct (away_none _ _ A') as (_ & -> & _). unfold passes at 2. cbn. rewrite Nat.eqb_refl. cbn. lia. }
      destruct e as [ex|].
      * destruct IHn as (s & tr & Es & Hc & He & Hp). exists None, (tr ++ [Fut id (RPassed (S (passes id true h)) (passes id false h))]). cbn [den cfilter_m generator send alive]. rewrite E, Es. cbn [snd]. rewrite Hc.
        split; [reflexivity|]. split; [closed|]. rewrite effs_app, futr_app, He. split; [cbn; now rewrite app_nil_r|]. cbn [futures map]. unfold value at 1. cbn [fst snd]. rewrite C1, C2, Hp.
        cbn. symmetry. apply Permutation_cons_append.
      * destruct IHn as (tr & Es & He & Hp). exists tr. cbn [den cfilter_m generator send alive]. rewrite E, Es, C1, C2. auto.
    + exists []. cbn [den cfilter_m generator send alive]. rewrite E, !passes_app, (alive_away n) by (intros e' [<-|[]]; exact Hid). unfold passes at 4 6. cbn. rewrite Nat.eqb_refl. cbn. rewrite Nat.add_0_r, Nat.add_1_r. auto.
    + exists None, (snd (close (den n) (alive n h)) ++ [Fut id (RPassed (passes id true h) (passes id false h))]). cbn [den cfilter_m generator send alive]. rewrite E. split; [reflexivity|]. split; [closed|]. rewrite app_nil_r.
      exact (close_alive (NCFilter id p n) h M).
  - (* spy *) inversion N as [|? ? Hid N']; subst. destruct (f x) as [ex|] eqn:E.
    + exists None, (Eff id x :: snd (close (den n) (alive n h))). cbn [den spy_m generator send alive]. rewrite E. split; [reflexivity|]. split; [closed|]. destruct (close_alive n h M) as [E1 P1].
      split; [cbn; f_equal; exact E1|]. change (Permutation (futr (snd (close (den n) (alive n h)))) (map (value (h ++ [HEff id x])) (futures n))). rewrite (values_away n h [HEff id x]); [exact P1|intros e' [<-|[]]; exact Hid].
    + specialize (IHn (h ++ [HEff id x]) x M N'). unfold steps_ok in IHn. destruct (treat n x) as [[y' evs] e].
      assert (A0 : away (ids n) [HEff id x]) by (intros e' [<-|[]]; exact Hid).
      rewrite (alive_away n h _ A0), <- !app_assoc in IHn. cbn [app] in IHn. destruct e as [ex|].
      * destruct IHn as (s & tr & Es & Hc & He & Hp). exists None, (Eff id x :: tr ++ []). cbn [den spy_m generator send alive]. rewrite E, Es. cbn [snd]. rewrite Hc. split; [reflexivity|]. split; [closed|]. rewrite app_nil_r.
        split; [exact (f_equal (cons (id, x)) He)|exact Hp].
      * destruct IHn as (tr & Es & He & Hp). exists (Eff id x :: tr). cbn [den spy_m generator send alive]. rewrite E, Es. split; [reflexivity|]. split; [exact (f_equal (cons (id, x)) He)|exact Hp].
  - (* branch *) destruct M as [M1 M2]. pose proof (NoDup_app_l _ _ N) as N1. pose proof (NoDup_app_r _ _ N) as N2.
    assert (A12 : apart (ids n1) (ids n2)) by (intros i H1; exact (NoDup_app_disj _ _ i N H1)).
    specialize (IHn1 h x M1 N1). unfold steps_ok in IHn1. pose proof (treat_away n1 x (ids n2) (apart_sym _ _ A12)) as A1. destruct (treat n1 x) as [[x' evs] [ex|]].
    + destruct IHn1 as (s & tr & Es & Hc & He & Hp). destruct (close_alive n2 h M2) as [E2 P2]. exists None, (tr ++ snd (close (den n2) (alive n2 h)) ++ []). cbn [den branch_m generator send alive]. rewrite Es. cbn [snd]. rewrite Hc.
      split; [reflexivity|]. split; [closed|]. rewrite app_nil_r, effs_app, futr_app, He, E2, app_nil_r. split; [reflexivity|]. cbn [futures]. rewrite map_app, (values_away n2 h evs A1), Hp, P2. reflexivity.
    + destruct IHn1 as (tr & Es & He & Hp). specialize (IHn2 (h ++ evs) x' M2 N2). unfold steps_ok in IHn2. rewrite (alive_away n2 h evs A1) in IHn2. pose proof (treat_away n2 x' (ids n1) A12) as A2.
      destruct (treat n2 x') as [[x'' evs'] [ex|]].
      * destruct IHn2 as (s2 & tr2 & Es2 & Hc2 & He2 & Hp2). destruct (close_alive n1 (h ++ evs) M1) as [E1 P1].
        exists None, ((tr ++ tr2) ++ snd (close (den n1) (alive n1 (h ++ evs)))). cbn [den branch_m generator send alive]. rewrite Es, Es2. cbn [snd]. rewrite Hc2. split; [reflexivity|]. split; [closed|].
        rewrite !effs_app, !futr_app, He, He2, E1, Hp, app_nil_r, effects_app. split; [reflexivity|]. cbn [futures app]. rewrite map_app, app_assoc, (values_away n1 (h ++ evs) evs' A2), Hp2, P1. apply Permutation_app_comm.
      * destruct IHn2 as (tr2 & Es2 & He2 & Hp2). exists (tr ++ tr2). cbn [den branch_m generator send alive]. rewrite Es, Es2. rewrite app_assoc, (alive_away n1 (h ++ evs) evs' A2). split; [reflexivity|].
        rewrite effs_app, futr_app, effects_app, He, He2, Hp, Hp2. auto.
  - (* fork *) change (let '(x', evs, e) := treat_fork l x in match e with
       | None => exists tr, send (den (NFork l)) (alive (NFork l) h) x = (alive (NFork l) (h ++ evs), x', tr, None) /\ effs tr = effects evs /\ futr tr = []
       | Some ex => exists s tr, send (den (NFork l)) (alive (NFork l) h) x = (s, x', tr, Some ex) /\ snd (close (den (NFork l)) s) = [] /\ effs tr = effects evs /\ Permutation (futr tr) (map (value (h ++ evs)) (flat_map futures l))
       end).
    assert (G : let '(x', evs, e) := treat_fork l x in match e with
       | None => exists tr, fork_send (map den l) (alive_fork h l) x = (alive_fork (h ++ evs) l, x', tr, None) /\ effs tr = effects evs /\ futr tr = []
       | Some ex => exists s tr, fork_send (map den l) (alive_fork h l) x = (s, x', tr, Some ex) /\ effs (tr ++ fork_close (map den l) s) = effects evs /\ Permutation (futr (tr ++ fork_close (map den l) s)) (map (value (h ++ evs)) (flat_map futures l))
       end).
    { change (NoDup (flat_map ids l)) in N. revert h x M N. induction H as [|c l Hc _ IH]; intros h x M N; [exists []; split; [cbn; reflexivity|split; reflexivity]|].
      destruct M as [M1 M2]. cbn [flat_map] in N. pose proof (NoDup_app_l _ _ N) as N1. pose proof (NoDup_app_r _ _ N) as N2.
      assert (A12 : apart (ids c) (flat_map ids l)) by (intros i H1; exact (NoDup_app_disj _ _ i N H1)).
      cbn [treat_fork map alive_fork fork_send]. specialize (Hc h x M1 N1). unfold steps_ok in Hc. pose proof (treat_away c x (flat_map ids l) (apart_sym _ _ A12)) as A1. destruct (treat c x) as [[x' evs] [ex|]].
      - destruct Hc as (s & tr & Es & Hcl & He & Hp). destruct (close_alive (NFork l) h M2) as [E2 P2]. exists (s, alive_fork h l), tr. rewrite Es. split; [reflexivity|]. cbn [fork_close map]. rewrite Hcl. cbn [app].
        change (fork_close (map den l) (alive_fork h l)) with (snd (close (den (NFork l)) (alive (NFork l) h))). rewrite effs_app, futr_app, He, E2, app_nil_r. split; [reflexivity|].
        cbn [flat_map]. rewrite map_app, (values_away_fork l h evs A1), Hp. apply Permutation_app_head. exact P2.
      - destruct Hc as (tr & Es & He & Hp). specialize (IH (h ++ evs) x' M2 N2). pose proof (alive_away (NFork l) h evs A1) as AA. injection AA as AA. change (alive_fork (h ++ evs) l = alive_fork h l) in AA. rewrite AA in IH.
        assert (A2 : let '(_, evs', _) := treat_fork l x' in away (ids c) evs').
        { pose proof (treat_away (NFork l) x' (ids c) A12) as T. exact T. }
        destruct (treat_fork l x') as [[x'' evs'] [ex|]].
        + destruct IH as (ss & tr2 & Es2 & He2 & Hp2). destruct (close_alive c (h ++ evs) M1) as [E1 P1]. exists (alive c (h ++ evs), ss), (tr ++ tr2). rewrite Es, Es2. split; [reflexivity|]. cbn [fork_close map].
          rewrite effs_app in He2. rewrite futr_app in Hp2. rewrite !effs_app, !futr_app, He, E1, Hp, effects_app, <- He2. cbn [app]. split; [now rewrite <- app_assoc|].
          cbn [flat_map]. rewrite map_app, (app_assoc h evs evs'), (values_away c (h ++ evs) evs' A2), P1, <- Hp2. rewrite !app_assoc. apply Permutation_app_tail. apply Permutation_app_comm.
        + destruct IH as (tr2 & Es2 & He2 & Hp2). exists (tr ++ tr2). rewrite Es, Es2. rewrite app_assoc, (alive_away c (h ++ evs) evs' A2). split; [reflexivity|]. rewrite effs_app, futr_app, effects_app, He, He2, Hp, Hp2. auto. }
    destruct (treat_fork l x) as [[x' evs] [ex|]].
    + destruct G as (s & tr & Es & He & Hp). exists None, (tr ++ fork_close (map den l) s). cbn [den fork_m generator send alive]. change ((fix go l : fork_st (map den l) := match l return fork_st (map den l) with [] => tt | c :: l => (alive c h, go l) end) l) with (alive_fork h l).
      rewrite Es. split; [reflexivity|]. split; [closed|]. auto.
    + destruct G as (tr & Es & He & Hp). exists tr. cbn [den fork_m generator send alive]. change ((fix go l : fork_st (map den l) := match l return fork_st (map den l) with [] => tt | c :: l => (alive c h, go l) end) l) with (alive_fork h l).
      rewrite Es. auto.
Qed.

Lemma effs_calls id tr : calls id tr = map snd (filter (fun p => fst p =? id) (effs tr)).
Proof.
  induction tr as [|[i x|i r] tr IH]; [reflexivity| |exact IH]. cbn [effs flat_map app filter fst]. unfold calls in *. cbn [flat_map]. change (flat_map _ tr) with (calls id tr) at 1.
  destruct (i =? id) eqn:E; cbn; rewrite ?E; cbn; [f_equal|]; exact IH.
Qed.
Lemma effects_called id h : called id h = map snd (filter (fun p => fst p =? id) (effects h)).
Proof.
  induction h as [|e h IH]; [reflexivity|]. destruct e as [i x|i|i b|i x]; try exact IH. unfold called in *. cbn [effects flat_map app filter fst map].
  destruct (i =? id) eqn:E; cbn; rewrite ?E; cbn; [f_equal|]; exact IH.
Qed.

(** a run is the loop; the results are those of all that happened *)
Theorem run_is_loop n xs : memoryless n -> NoDup (ids n) ->
  let '(h, k, e) := loop n xs in
  o_read (run n xs) = k /\
  o_raised (run n xs) = match e with Some (OtherExc c) => Some c | _ => None end /\
  (forall id, calls id (o_trace (run n xs)) = called id h) /\
  Permutation (futr (o_trace (run n xs))) (map (value h) (futures n)).
Proof.
  intros M N.
  assert (G : forall xs h, let '(h', k, e) := loop n xs in exists s tr, feed (den n) (alive n h) xs = (s, tr, k, e) /\
     (e = None -> s = alive n (h ++ h') /\ futr tr = []) /\ effs tr = effects h' /\
     (e <> None -> snd (close (den n) s) = [] /\ Permutation (futr tr) (map (value (h ++ h')) (futures n)))).
  { clear xs. induction xs as [|x xs IH]; intros h; [cbn; exists (alive n h), []; rewrite app_nil_r; repeat split; easy|]. cbn [loop feed].
    pose proof (send_alive n h x M N) as S. unfold steps_ok in S. destruct (treat n x) as [[x' evs] [ex|]].
    - destruct S as (s & tr & Es & Hc & He & Hp). exists s, tr. rewrite Es. split; [reflexivity|]. split; [easy|]. auto.
    - destruct S as (tr & Es & He & Hp). specialize (IH (h ++ evs)). destruct (loop n xs) as [[h' k] e]. destruct IH as (s & tr2 & Ef & H1 & H2 & H3). exists s, (tr ++ tr2). rewrite Es, Ef. split; [reflexivity|].
      rewrite !app_assoc in *. rewrite effs_app, futr_app, effects_app, He, H2, Hp. auto. }
  specialize (G xs []). destruct (loop n xs) as [[h k] e]. destruct G as (s & tr & Ef & H1 & H2 & H3). cbn [app] in *.
  assert (S0 : start (den n) = alive n []).
  { clear -M. induction n using node_ind'; cbn [memoryless] in M; try contradiction; cbn [den start alive generator sink_m reduce_m count_m map_m upd_m filter_m cfilter_m spy_m branch_m fork_m]; try reflexivity; try (now rewrite IHn).
    - rewrite IHn1, IHn2 by apply M. reflexivity.
    - f_equal. change (fork_start (map den l) = alive_fork [] l). induction H as [|c l Hc _ IH]; [reflexivity|]. cbn. rewrite Hc, IH by apply M. reflexivity. }
  unfold run, push. rewrite S0, Ef.
  assert (T : forall tr', effs tr' = effects h -> forall id, calls id tr' = called id h) by (intros tr' E id; now rewrite effs_calls, effects_called, E).
  destruct e as [[|c]|].
  - destruct (H3 ltac:(discriminate)) as [Hc Hp]. rewrite Hc, app_nil_r. split; [reflexivity|]. split; [reflexivity|]. split; [apply T, H2|exact Hp].
  - destruct (H3 ltac:(discriminate)) as [Hc Hp]. split; [reflexivity|]. split; [reflexivity|]. split; [apply T, H2|exact Hp].
  - destruct (H1 eq_refl) as [-> Hp]. destruct (close_alive n h M) as [E1 P1]. cbn [o_read o_raised o_trace]. split; [reflexivity|]. split; [reflexivity|]. split.
    + apply T. rewrite effs_app, E1, app_nil_r. exact H2.
    + rewrite futr_app, Hp. exact P1.
Qed.
End Loop.
Print Assumptions run_is_loop.
