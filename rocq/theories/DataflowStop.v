(** Proofs: slicing (C01), counters (C04), early stop (C05), dictionaries (C06) *)
From Coq Require Import List Bool Arith ZArith Lia Permutation.
Import ListNotations.
From Verif Require Import DataflowModel DataflowSpec DataflowProofs DataflowList.
Local Open Scope nat_scope.

Section S.
Context {item : Type}.
Notation ev := (ev item). Notation node := (node item). Notation machine := (machine item).
Local Arguments calls : simpl never.
Local Arguments results : simpl never.

(** ---- C01 ---- *)
(* one loop of push, on ctrace *)
Lemma ctrace_nil (m : machine) s : ctrace m s [] = snd (close m s).
Proof. reflexivity. Qed.
Lemma ctrace_ok (m : machine) s x xs s1 x1 tr :
  send m s x = (s1, x1, tr, None) -> ctrace m s (x :: xs) = tr ++ ctrace m s1 xs.
Proof.
  intros H. unfold ctrace. cbn [feed]. rewrite H.
  destruct (feed m s1 xs) as [[[? ?] ?] ?]. now rewrite app_assoc.
Qed.
Lemma ctrace_exc (m : machine) s x xs s1 x1 tr e :
  send m s x = (s1, x1, tr, Some e) -> ctrace m s (x :: xs) = tr ++ snd (close m s1).
Proof. intros H. unfold ctrace. cbn [feed]. rewrite H. reflexivity. Qed.

Fixpoint raises (m : machine) (s : St m) (xs : list item) : option exc :=
  match xs with
  | [] => None
  | x :: xs' => let '(s', _, _, e) := send m s x in
                match e with Some ex => Some ex | None => raises m s' xs' end
  end.
Lemma raises_feed (m : machine) s xs : raises m s xs = snd (feed m s xs).
Proof.
  revert s; induction xs as [|x xs IH]; intros s; cbn; [reflexivity|].
  destruct (send m s x) as [[[s1 x1] tr] [e|]]; [reflexivity|]. rewrite IH.
  destruct (feed m s1 xs) as [[[? ?] ?] ?]. reflexivity.
Qed.

Definition visible (e : option exc) : option nat :=
  match e with Some (OtherExc c) => Some c | _ => None end.

Lemma sel_nil st (xs : list item) : select (sl_sel st 0 (Some 0) (length xs)) xs = [] .
Proof. induction xs as [|x xs IH]; cbn; [reflexivity|]. exact IH. Qed.
Lemma sel_nil' st b (xs : list item) : no_blocks b = true -> select (sl_sel st 0 b (length xs)) xs = [].
Proof. destruct b as [[|]|]; try discriminate. intros _. now apply sel_nil. Qed.

Lemma slice_ctrace sp (m : machine) xs : forall k b s,
  let ys := select (sl_sel (sl_step1 sp) k b (length xs)) xs in
  ctrace (slice_m sp m) (Some (k, b, s)) xs = ctrace m s ys /\
  visible (raises (slice_m sp m) (Some (k, b, s)) xs) = visible (raises m s ys).
Proof.
  induction xs as [|x xs IH]; intros k b s.
  - now split.
  - cbn [length sl_sel]. destruct k as [|k].
    + destruct (no_blocks b) eqn:Eb.
      * change (select (false :: ?l) (x :: xs)) with (select l xs).
        erewrite ctrace_ok by (cbn; rewrite Eb; reflexivity).
        cbn [raises]. cbn [send slice_m generator]. rewrite Eb. apply IH.
      * change (select (true :: ?l) (x :: xs)) with (x :: select l xs).
        cbn [raises]. cbn [send slice_m generator]. rewrite Eb.
        destruct (send m s x) as [[[s1 x1] tr] [e|]] eqn:Es.
        -- split; [|reflexivity]. erewrite (ctrace_exc m) by exact Es.
           erewrite ctrace_exc by (cbn; rewrite Eb, Es; reflexivity). cbn. apply app_nil_r.
        -- erewrite (ctrace_ok m) by exact Es.
           destruct (slice_end sp (sl_step1 sp) (dec_blocks b)) as [e|] eqn:Ee.
           ++ assert (He : e = StopPipeline /\ sl_step1 sp = 0 /\ no_blocks (dec_blocks b) = true).
              { unfold slice_end in Ee. destruct (sl_close sp); [|discriminate].
                destruct (Nat.eqb_spec (sl_step1 sp) 0); [|discriminate].
                destruct (no_blocks (dec_blocks b)); [|discriminate]. now inversion Ee. }
              destruct He as (-> & E0 & Eb').
              erewrite ctrace_exc by (cbn; rewrite Eb, Es, Ee; reflexivity).
              cbn [slice_m generator close snd]. rewrite app_nil_r.
              replace (sl_sel (sl_step1 sp) (sl_step1 sp) (dec_blocks b) (length xs)) with (sl_sel 0 0 (dec_blocks b) (length xs)) by now rewrite E0. rewrite (sel_nil' 0 _ _ Eb'). rewrite ctrace_nil. auto.
           ++ erewrite (ctrace_ok (slice_m sp m)) by (cbn; rewrite Eb, Es, Ee; reflexivity).
              destruct (IH (sl_step1 sp) (dec_blocks b) s1) as [H1 H2]. now rewrite H1.
    + change (select (false :: ?l) (x :: xs)) with (select l xs).
      cbn [raises]. cbn [send slice_m generator].
      destruct (slice_end sp k b) as [e|] eqn:Ee.
      * assert (He : e = StopPipeline /\ k = 0 /\ no_blocks b = true).
        { unfold slice_end in Ee. destruct (sl_close sp); [|discriminate].
          destruct (Nat.eqb_spec k 0); [|discriminate].
          destruct (no_blocks b); [|discriminate]. now inversion Ee. }
        destruct He as (-> & -> & Eb). rewrite (sel_nil' _ _ _ Eb).
        erewrite ctrace_exc by (cbn; rewrite Ee; reflexivity). cbn [app]. split; [|reflexivity]. rewrite ctrace_nil. cbn. now rewrite ?app_nil_r.
      * erewrite ctrace_ok by (cbn; rewrite Ee; reflexivity). apply IH.
Qed.

Lemma select_py_slice sp (xs : list item) :
  select (map (in_slice sp) (seq 0 (length xs))) xs = py_slice sp xs.
Proof.
  unfold select, py_slice. generalize 0 as i. induction xs as [|x xs IH]; intros i; cbn; [reflexivity|].
  destruct (in_slice sp i); cbn; [f_equal|]; apply IH.
Qed.

Lemma run_raised (n : node) xs : o_raised (run n xs) = visible (raises (den n) (start (den n)) xs).
Proof.
  unfold run, push. rewrite raises_feed.
  destruct (feed (den n) (start (den n)) xs) as [[[s tr] k] [[|c]|]]; reflexivity.
Qed.

Lemma slice_run sp (n : node) xs :
  o_trace (run (NSlice sp n) xs) = o_trace (run n (py_slice sp xs)) /\
  o_raised (run (NSlice sp n) xs) = o_raised (run n (py_slice sp xs)).
Proof.
  rewrite !run_ctrace, !run_raised. rewrite <- select_py_slice, <- slice_start_sel.
  apply slice_ctrace.
Qed.

(** how much is read *)
Lemma feed_read_all (m : machine) s xs : raises m s xs = None -> snd (fst (feed m s xs)) = length xs.
Proof.
  revert s; induction xs as [|x xs IH]; intros s H; cbn in *; [reflexivity|].
  destruct (send m s x) as [[[s1 x1] tr] [e|]]; [discriminate|].
  specialize (IH s1 H). destruct (feed m s1 xs) as [[[? ?] ?] ?]. cbn in *. now f_equal.
Qed.

Definition calm (m : machine) (s : St m) : Prop := forall ys, raises m s ys = None.
Lemma calm_send (m : machine) s x s1 x1 tr e : calm m s -> send m s x = (s1, x1, tr, e) -> e = None /\ calm m s1.
Proof.
  intros Hc Hs. split.
  - specialize (Hc [x]). cbn in Hc. rewrite Hs in Hc. destruct e; [discriminate | reflexivity].
  - intros ys. specialize (Hc (x :: ys)). cbn in Hc. rewrite Hs in Hc. destruct e; [discriminate|exact Hc].
Qed.

Lemma calm_of_reads (n : node) : (forall ys, o_read (run n ys) = length ys) -> calm (den n) (start (den n)).
Proof.
  intros H ys. destruct (raises (den n) (start (den n)) ys) as [e|] eqn:E; [|reflexivity]. exfalso.
  destruct ys as [|y ys]; [discriminate|].
  assert (Hn : forall (m : machine) s xs e', raises m s xs = Some e' ->
           snd (fst (feed m s (xs ++ [y]))) <= length xs).
  { clear. intros m s xs; revert s; induction xs as [|x xs IH]; intros s e'; cbn; [discriminate|].
    destruct (send m s x) as [[[s1 x1] tr] [e|]]; intros He; cbn; [lia|].
    specialize (IH s1 _ He). destruct (feed m s1 (xs ++ [y])) as [[[? ?] ?] ?]. cbn in *. lia. }
  specialize (Hn _ _ _ _ E). specialize (H ((y :: ys) ++ [y])).
  unfold run, push in H. rewrite app_length in H.
  destruct (feed (den n) (start (den n)) ((y :: ys) ++ [y])) as [[[s tr] k] [[|c]|]]; cbn in *; lia.
Qed.

Definition nread (m : machine) (s : St m) (xs : list item) : nat := snd (fst (feed m s xs)).
Lemma nread_ok (m : machine) s x xs s1 x1 tr :
  send m s x = (s1, x1, tr, None) -> nread m s (x :: xs) = S (nread m s1 xs).
Proof.
  intros H. unfold nread. cbn [feed]. rewrite H. destruct (feed m s1 xs) as [[[? ?] ?] ?]. reflexivity.
Qed.
Lemma nread_exc (m : machine) s x xs s1 x1 tr e :
  send m s x = (s1, x1, tr, Some e) -> nread m s (x :: xs) = 1.
Proof. intros H. unfold nread. cbn [feed]. rewrite H. reflexivity. Qed.

Lemma slice_nread sp (m : machine) xs : sl_close sp = true -> forall nb k s, calm m s ->
  0 < k + nb * S (sl_step1 sp) ->
  nread (slice_m sp m) (Some (k, Some nb, s)) xs = Nat.min (length xs) (k + nb * S (sl_step1 sp)).
Proof.
  intros Hc. induction xs as [|x xs IH]; intros nb k s Hs Hp; [reflexivity|].
  destruct k as [|k].
  - destruct nb as [|nb]; [lia|].
    destruct (send m s x) as [[[s1 x1] tr] e] eqn:Es.
    destruct (calm_send _ _ _ _ _ _ _ Hs Es) as [-> Hs1].
    destruct (slice_end sp (sl_step1 sp) (Some nb)) as [e|] eqn:Ee.
    + erewrite nread_exc by (cbn; rewrite Es, Ee; reflexivity).
      unfold slice_end in Ee. rewrite Hc in Ee. cbn [andb] in Ee.
      destruct (Nat.eqb_spec (sl_step1 sp) 0); [|discriminate].
      destruct nb; [|discriminate]. cbn [length]. lia.
    + erewrite nread_ok by (cbn; rewrite Es, Ee; reflexivity).
      rewrite IH; [cbn [length]; lia | exact Hs1|].
      unfold slice_end in Ee. rewrite Hc in Ee. cbn [andb] in Ee.
      destruct (Nat.eqb_spec (sl_step1 sp) 0); [|lia].
      destruct nb; [discriminate|]. lia.
  - destruct (slice_end sp k (Some nb)) as [e|] eqn:Ee.
    + erewrite nread_exc by (cbn; rewrite Ee; reflexivity).
      unfold slice_end in Ee. rewrite Hc in Ee. cbn [andb] in Ee.
      destruct (Nat.eqb_spec k 0); [|discriminate].
      destruct nb; [|discriminate]. cbn [length]. lia.
    + erewrite nread_ok by (cbn; rewrite Ee; reflexivity).
      rewrite IH; [cbn [length]; lia | exact Hs|].
      unfold slice_end in Ee. rewrite Hc in Ee. cbn [andb] in Ee.
      destruct (Nat.eqb_spec k 0); [|lia].
      destruct nb; [discriminate|]. lia.
Qed.

Lemma slice_nread_open sp (m : machine) xs : (sl_close sp = false \/ sl_stop sp = None) -> forall b k s, calm m s ->
  (sl_stop sp = None -> b = None) ->
  nread (slice_m sp m) (Some (k, b, s)) xs = length xs.
Proof.
  intros Hc. induction xs as [|x xs IH]; intros b k s Hs Hb; [reflexivity|].
  assert (He : forall k, slice_end sp k b = None /\ slice_end sp k (dec_blocks b) = None).
  { intros j. unfold slice_end. destruct Hc as [->|Hc]; [now split|]. rewrite (Hb Hc).
    cbn. rewrite andb_false_r. now split. }
  destruct k as [|k].
  - destruct (no_blocks b) eqn:Eb.
    + erewrite nread_ok by (cbn; rewrite Eb; reflexivity). now rewrite IH.
    + destruct (send m s x) as [[[s1 x1] tr] e] eqn:Es.
      destruct (calm_send _ _ _ _ _ _ _ Hs Es) as [-> Hs1].
      erewrite nread_ok by (cbn; rewrite Eb, Es, (proj2 (He _)); reflexivity).
      rewrite IH; [reflexivity | exact Hs1|]. intros Hn. now rewrite (Hb Hn).
  - erewrite nread_ok by (cbn; rewrite (proj1 (He _)); reflexivity). now rewrite IH.
Qed.

Lemma run_nread (n : node) xs : o_read (run n xs) = nread (den n) (start (den n)) xs.
Proof.
  unfold run, push, nread.
  destruct (feed (den n) (start (den n)) xs) as [[[s tr] k] [[|c]|]]; reflexivity.
Qed.

Lemma slice_run_read sp (n : node) xs :
  (forall ys, o_read (run n ys) = length ys) ->
  o_read (run (NSlice sp n) xs) =
  match sl_close sp, sl_stop sp with
  | true, Some b => Nat.min (length xs) (slice_reads (sl_start sp) b (S (sl_step1 sp)))
  | _, _ => length xs
  end.
Proof.
  intros H. pose proof (calm_of_reads n H) as Hc. rewrite run_nread.
  destruct (sl_close sp) eqn:Ec.
  - destruct (sl_stop sp) as [B|] eqn:Eb.
    + cbn [den]. change (start (slice_m sp (den n))) with
        (Some (slice_extra sp + sl_start sp, slice_blocks sp, start (den n))).
      unfold slice_blocks. rewrite Eb. rewrite slice_nread; [|exact Ec|exact Hc|].
      * unfold slice_extra, slice_reads. rewrite Eb.
        destruct (Nat.leb_spec B (sl_start sp)) as [Hl|Hl].
        -- replace (B - sl_start sp) with 0 by lia. cbn [Nat.add]. rewrite Nat.div_small by lia.
           f_equal. lia.
        -- f_equal. cbn [Nat.add]. f_equal. f_equal. f_equal. lia.
      * unfold slice_extra. rewrite Eb. destruct (Nat.leb_spec B (sl_start sp)) as [Hl|Hl]; [lia|].
        assert (0 < (B - sl_start sp + sl_step1 sp) / S (sl_step1 sp)); [|lia].
        apply Nat.div_str_pos. lia.
    + cbn [den]. apply slice_nread_open; auto. intros _. cbn. unfold slice_blocks. now rewrite Eb.
  - cbn [den]. apply slice_nread_open; auto. intros Eb. cbn. unfold slice_blocks. now rewrite Eb.
Qed.

Lemma py_slice_z_ok start stop step c sp (xs : list item) :
  mk_slice_spec start stop step c = inl sp ->
  py_slice sp xs = py_slice_z start stop step xs /\ sl_close sp = c /\
  sl_start sp = Z.to_nat (match start with Some a => a | None => 0%Z end) /\
  sl_stop sp = match stop with Some b => Some (Z.to_nat b) | None => None end /\
  S (sl_step1 sp) = Z.to_nat (match step with Some a => a | None => 1%Z end).
Proof.
  unfold mk_slice_spec. intros H.
  destruct (match start with Some z => (z <? 0)%Z | None => false end) eqn:E1; [discriminate|].
  destruct (match stop with Some z => (z <? 0)%Z | None => false end) eqn:E2; [discriminate|].
  destruct (match step with Some z => (z <=? 0)%Z | None => false end) eqn:E3; [discriminate|].
  inversion H; subst sp; clear H. split; [|cbn; repeat split].
  2: now destruct start.
  2: destruct step as [z|]; [apply Z.leb_gt in E3; lia | reflexivity].
  unfold py_slice, py_slice_z. f_equal.
  apply filter_ext. intros [i x]. cbn [fst]. unfold in_slice. cbn [sl_start sl_stop sl_step1].
  set (a := match start with Some a => a | None => 0%Z end).
  set (s := match step with Some s => s | None => 1%Z end).
  assert (Ha : (0 <= a)%Z) by (subst a; destruct start; [apply Z.ltb_ge in E1; lia | lia]).
  assert (Hs : (0 < s)%Z) by (subst s; destruct step; [apply Z.leb_gt in E3; lia | lia]).
  replace (match start with Some z => Z.to_nat z | None => 0 end) with (Z.to_nat a) by (subst a; now destruct start).
  replace (match step with Some z => Nat.pred (Z.to_nat z) | None => 0 end) with (Nat.pred (Z.to_nat s))
    by (subst s; now destruct step).
  replace (S (Nat.pred (Z.to_nat s))) with (Z.to_nat s) by lia.
  destruct (Z.leb_spec a (Z.of_nat i)) as [Hai|Hai].
  - replace (Z.to_nat a <=? i) with true by (symmetry; apply Nat.leb_le; lia). cbn [andb]. f_equal.
    + destruct stop as [b|]; [|reflexivity]. apply Z.ltb_ge in E2.
      destruct (Nat.ltb_spec i (Z.to_nat b)), (Z.ltb_spec (Z.of_nat i) b); lia.
    + replace (Z.of_nat i - a)%Z with (Z.of_nat (i - Z.to_nat a)) by lia.
      replace s with (Z.of_nat (Z.to_nat s)) at 2 by lia. rewrite <- Nat2Z.inj_mod.
      destruct (Nat.eqb_spec ((i - Z.to_nat a) mod Z.to_nat s) 0) as [E|E];
      destruct (Z.eqb_spec (Z.of_nat ((i - Z.to_nat a) mod Z.to_nat s)) 0); lia.
  - replace (Z.to_nat a <=? i) with false by (symmetry; apply Nat.leb_gt; lia). reflexivity.
Qed.
End S.
