(** Proofs: pipelines of non-raising components compute list functions (C02) *)
From Coq Require Import List Bool Arith Lia Permutation.
Import ListNotations.
From Verif Require Import DataflowModel DataflowSpec DataflowProofs.

Section L.
Context {item : Type}.
Notation ev := (ev item). Notation node := (node item). Notation machine := (machine item).
Notation pnode := (pnode item).
Local Arguments calls : simpl never.
Local Arguments results : simpl never.

Lemma pnode_ind' (P : pnode -> Prop)
  (Hsink : forall id, P (PSink id))
  (Hred : forall id u a, P (PReduce id u a))
  (Hcnt : forall id, P (PCount id))
  (Hmap : forall f n, P n -> P (PMap f n))
  (Hupd : forall f n, P n -> P (PUpd f n))
  (Hflat : forall f n, P n -> P (PFlat f n))
  (Hfil : forall p n, P n -> P (PFilter p n))
  (Hcfil : forall id p n, P n -> P (PCFilter id p n))
  (Hspy : forall id n, P n -> P (PSpy id n))
  (Hbr : forall a n, P a -> P n -> P (PBranch a n))
  (Hfork : forall l, Forall P l -> P (PFork l))
  (Hsl : forall a b s n, P n -> P (PSlice a b s n)) : forall n, P n.
Proof.
  fix IH 1. intros n. destruct n.
  - apply Hsink. - apply Hred. - apply Hcnt.
  - apply Hmap, IH. - apply Hupd, IH. - apply Hflat, IH.
  - apply Hfil, IH. - apply Hcfil, IH. - apply Hspy, IH.
  - apply Hbr; apply IH.
  - apply Hfork. induction l as [|a l IHl]; constructor; [apply IH | exact IHl].
  - apply Hsl, IH.
Qed.

(** feeding, keeping the items as they are left behind *)
Fixpoint feedx (m : machine) (s : St m) (xs : list item) : St m * list item * list ev * option exc :=
  match xs with
  | []       => (s, [], [], None)
  | x :: xs' => let '(s', x', tr, e) := send m s x in
                match e with
                | Some ex => (s', [x'], tr, Some ex)
                | None    => let '(s'', ys, tr', e') := feedx m s' xs' in (s'', x' :: ys, tr ++ tr', e')
                end
  end.

Lemma feedx_feed (m : machine) xs s s' ys tr :
  feedx m s xs = (s', ys, tr, None) -> feed m s xs = (s', tr, length xs, None).
Proof.
  revert s s' ys tr; induction xs as [|x xs IH]; intros s s' ys tr H; cbn in *.
  - now inversion H.
  - destruct (send m s x) as [[[s1 x1] tr1] [e|]]; [discriminate|].
    destruct (feedx m s1 xs) as [[[s2 ys2] tr2] e2] eqn:E. inversion H; subst.
    erewrite IH by eassumption. reflexivity.
Qed.

Lemma feedx_only (m : machine) l : only m l -> forall xs s,
  evs_in l (snd (fst (feedx m s xs))).
Proof.
  intros H xs; induction xs as [|x xs IH]; intros s; cbn; [constructor|].
  pose proof (only_send _ _ H s x) as Ho.
  destruct (send m s x) as [[[s1 x1] tr1] [e|]]; cbn in *; [exact Ho|].
  specialize (IH s1). destruct (feedx m s1 xs) as [[[s2 ys2] tr2] e2]. cbn in *.
  apply Forall_app; split; assumption.
Qed.

Lemma feedx_app (m : machine) xs ys s s' us tr :
  feedx m s xs = (s', us, tr, None) ->
  feedx m s (xs ++ ys) = (let '(s'', vs, tr', e) := feedx m s' ys in (s'', us ++ vs, tr ++ tr', e)).
Proof.
  revert s s' us tr; induction xs as [|x xs IH]; intros s s' us tr H; cbn in *.
  - inversion H; subst. destruct (feedx m s' ys) as [[[? ?] ?] ?]; reflexivity.
  - destruct (send m s x) as [[[s1 x1] tr1] [e|]]; [discriminate|].
    destruct (feedx m s1 xs) as [[[s2 ys2] tr2] e2] eqn:E. inversion H; subst.
    erewrite IH by eassumption. destruct (feedx m s' ys) as [[[? ?] ?] ?].
    rewrite app_assoc. reflexivity.
Qed.

Lemma feedx_app_inv (m : machine) xs ys s s' us tr :
  feedx m s (xs ++ ys) = (s', us, tr, None) ->
  exists s1 us1 tr1 us2 tr2, feedx m s xs = (s1, us1, tr1, None) /\
     feedx m s1 ys = (s', us2, tr2, None) /\ us = us1 ++ us2 /\ tr = tr1 ++ tr2 /\ length us1 = length xs.
Proof.
  revert s s' us tr; induction xs as [|x xs IH]; intros s s' us tr H; cbn in *.
  - exists s, [], [], us, tr. auto.
  - destruct (send m s x) as [[[s1 x1] tr1] [e|]]; [discriminate|].
    destruct (feedx m s1 (xs ++ ys)) as [[[s2 ys2] tr2] e2] eqn:E. inversion H; subst.
    destruct (IH _ _ _ _ E) as (s3 & us3 & tr3 & us4 & tr4 & H1 & H2 & -> & -> & Hl).
    rewrite H1. exists s3, (x1 :: us3), (tr1 ++ tr3), us4, tr4. repeat split; cbn; auto.
    now rewrite app_assoc.
Qed.

(** interleavings *)
Inductive mix : list ev -> list ev -> list ev -> Prop :=
| mix_nil : mix [] [] []
| mix_l e a b c : mix a b c -> mix (e :: a) b (e :: c)
| mix_r e a b c : mix a b c -> mix a (e :: b) (e :: c).

Lemma mix_app_l x a b c : mix a b c -> mix (x ++ a) b (x ++ c).
Proof. induction x; cbn; auto using mix_l. Qed.
Lemma mix_app_r x a b c : mix a b c -> mix a (x ++ b) (x ++ c).
Proof. induction x; cbn; auto using mix_r. Qed.

Lemma calls_cons id (e : ev) l : calls id (e :: l) = calls id [e] ++ calls id l.
Proof. unfold calls. cbn. now rewrite app_nil_r. Qed.
Lemma results_cons id (e : ev) l : results id (e :: l) = results id [e] ++ results id l.
Proof. unfold results. cbn. now rewrite app_nil_r. Qed.

Lemma calls_mix id a b c : mix a b c -> calls id a = [] \/ calls id b = [] ->
  calls id c = calls id a ++ calls id b.
Proof.
  induction 1 as [|e a b c H IH|e a b c H IH]; intros Hd; [reflexivity| |].
  - rewrite (calls_cons id e a) in *. rewrite (calls_cons id e c).
    rewrite IH, app_assoc; [reflexivity|].
    destruct Hd as [Hd|Hd]; [|now right]. apply app_eq_nil in Hd. tauto.
  - rewrite (calls_cons id e b) in *. rewrite (calls_cons id e c). destruct Hd as [Hd|Hd].
    + rewrite IH by now left. rewrite Hd. reflexivity.
    + apply app_eq_nil in Hd. destruct Hd as [H1 H2]. rewrite IH by now right. rewrite H1, H2. reflexivity.
Qed.

Lemma results_mix id a b c : mix a b c -> results id a = [] -> results id b = [] -> results id c = [].
Proof.
  induction 1 as [|e a b c H IH|e a b c H IH]; intros Ha Hb; [reflexivity| |].
  - rewrite (results_cons id e a) in Ha. rewrite (results_cons id e c).
    apply app_eq_nil in Ha. destruct Ha as [Ha1 Ha2]. rewrite Ha1. auto.
  - rewrite (results_cons id e b) in Hb. rewrite (results_cons id e c).
    apply app_eq_nil in Hb. destruct Hb as [Hb1 Hb2]. rewrite Hb1. auto.
Qed.

Lemma calls_app id a b : calls id (a ++ b) = @calls item id a ++ calls id b.
Proof. apply flat_map_app. Qed.
Lemma results_app id a b : results id (a ++ b) = @results item id a ++ results id b.
Proof. apply flat_map_app. Qed.

Lemma calls_none id l tr : evs_in l tr -> ~ In id l -> @calls item id tr = [].
Proof.
  induction 1 as [|e tr He Htr IH]; intros Hi; [reflexivity|].
  rewrite calls_cons, (IH Hi), app_nil_r. unfold calls. destruct e as [i x|i r]; cbn in *; [|reflexivity].
  destruct (Nat.eqb_spec i id); [subst; contradiction | reflexivity].
Qed.
Lemma results_none id l tr : evs_in l tr -> ~ In id l -> @results item id tr = [].
Proof.
  induction 1 as [|e tr He Htr IH]; intros Hi; [reflexivity|].
  rewrite results_cons, (IH Hi), app_nil_r. unfold results. destruct e as [i x|i r]; cbn in *; [reflexivity|].
  destruct (Nat.eqb_spec i id); [subst; contradiction | reflexivity].
Qed.

(** one lemma per component *)
Lemma feedx_cons (m : machine) s x xs s1 x1 tr1 :
  send m s x = (s1, x1, tr1, None) ->
  feedx m s (x :: xs) = (let '(s'', ys, tr', e') := feedx m s1 xs in (s'', x1 :: ys, tr1 ++ tr', e')).
Proof. intros H. cbn [feedx]. rewrite H. reflexivity. Qed.

Lemma feedx_cons_inv (m : machine) s x xs s' ys tr :
  feedx m s (x :: xs) = (s', ys, tr, None) ->
  exists s1 x1 tr1 ys1 tr2, send m s x = (s1, x1, tr1, None) /\
    feedx m s1 xs = (s', ys1, tr2, None) /\ ys = x1 :: ys1 /\ tr = tr1 ++ tr2.
Proof.
  cbn [feedx]. destruct (send m s x) as [[[s1 x1] tr1] [e|]]; [discriminate|].
  destruct (feedx m s1 xs) as [[[s2 ys2] tr2] e2] eqn:E. intros H. inversion H; subst.
  repeat eexists; eauto.
Qed.

Ltac inv_feed H := 
  let s1 := fresh "s1" in let x1 := fresh "x1" in let tr1 := fresh "tr1" in
  let ys1 := fresh "ys1" in let tr2 := fresh "tr2" in
  let Hs := fresh "Hs" in let Hf := fresh "Hf" in
  destruct (feedx_cons_inv _ _ _ _ _ _ _ H) as (s1 & x1 & tr1 & ys1 & tr2 & Hs & Hf & -> & ->).

Lemma feedx_map f (m : machine) xs s s' ys tr :
  feedx m s (map f xs) = (s', ys, tr, None) ->
  feedx (map_m (fun x => Ret (f x)) m) (Some s) xs = (Some s', xs, tr, None).
Proof.
  revert s s' ys tr; induction xs as [|x xs IH]; intros s s' ys tr H; cbn [map] in *.
  - now inversion H.
  - inv_feed H. erewrite feedx_cons by (cbn; rewrite Hs; reflexivity).
    rewrite (IH _ _ _ _ Hf). reflexivity.
Qed.

Lemma feedx_upd f (m : machine) xs s s' ys tr :
  feedx m s (map f xs) = (s', ys, tr, None) ->
  feedx (upd_m (fun x => Ret (f x)) m) (Some s) xs = (Some s', ys, tr, None).
Proof.
  revert s s' ys tr; induction xs as [|x xs IH]; intros s s' ys tr H; cbn [map] in *.
  - now inversion H.
  - inv_feed H. erewrite feedx_cons by (cbn; rewrite Hs; reflexivity).
    rewrite (IH _ _ _ _ Hf). reflexivity.
Qed.

Lemma send_all_feedx (m : machine) ys s s' us tr :
  feedx m s ys = (s', us, tr, None) -> send_all m s ys = (s', tr, None).
Proof. intros H. rewrite send_all_feed, (feedx_feed _ _ _ _ _ _ H). reflexivity. Qed.

Lemma feedx_flat f (m : machine) xs s s' ys tr :
  feedx m s (flat_map f xs) = (s', ys, tr, None) ->
  feedx (flat_m (fun x => (f x, None)) m) (Some s) xs = (Some s', xs, tr, None).
Proof.
  revert s s' ys tr; induction xs as [|x xs IH]; intros s s' ys tr H; cbn [flat_map] in *.
  - now inversion H.
  - destruct (feedx_app_inv _ _ _ _ _ _ _ H) as (s1 & us1 & tr1 & us2 & tr2 & H1 & H2 & -> & -> & _).
    erewrite feedx_cons by (cbn; rewrite (send_all_feedx _ _ _ _ _ _ H1); reflexivity).
    rewrite (IH _ _ _ _ H2). reflexivity.
Qed.

Lemma feedx_filter p (m : machine) xs s s' ys tr :
  feedx m s (filter p xs) = (s', ys, tr, None) ->
  feedx (filter_m (fun x => Ret (p x)) m) (Some s) xs = (Some s', put_back (map p xs) ys xs, tr, None).
Proof.
  revert s s' ys tr; induction xs as [|x xs IH]; intros s s' ys tr H; cbn [filter map put_back] in *.
  - now inversion H.
  - destruct (p x) eqn:Ep.
    + inv_feed H. erewrite feedx_cons by (cbn; rewrite Ep, Hs; reflexivity).
      rewrite (IH _ _ _ _ Hf). reflexivity.
    + erewrite feedx_cons by (cbn; rewrite Ep; reflexivity).
      rewrite (IH _ _ _ _ H). reflexivity.
Qed.

Lemma feedx_cfilter id p (m : machine) xs s s' ys tr np nf :
  feedx m s (filter p xs) = (s', ys, tr, None) ->
  feedx (cfilter_m id (fun x => Ret (p x)) m) (Some (np, nf, s)) xs =
  (Some (np + length (filter p xs), nf + length (filter (fun x => negb (p x)) xs), s'),
   put_back (map p xs) ys xs, tr, None).
Proof.
  revert s s' ys tr np nf; induction xs as [|x xs IH]; intros s s' ys tr np nf H; cbn [filter map put_back] in *.
  - inversion H. cbn. now rewrite !Nat.add_0_r.
  - destruct (p x) eqn:Ep; cbn [negb length].
    + inv_feed H. erewrite feedx_cons by (cbn; rewrite Ep, Hs; reflexivity).
      rewrite (IH _ _ _ _ (S np) nf Hf). cbn [length]. now rewrite Nat.add_succ_r.
    + erewrite feedx_cons by (cbn; rewrite Ep; reflexivity).
      rewrite (IH _ _ _ _ np (S nf) H). cbn [length]. now rewrite Nat.add_succ_r.
Qed.

Lemma feedx_spy id (m : machine) xs s s' ys tr :
  feedx m s xs = (s', ys, tr, None) ->
  exists tr', feedx (spy_m id (fun _ => None) m) (Some s) xs = (Some s', ys, tr', None) /\
              mix (map (Eff id) xs) tr tr'.
Proof.
  revert s s' ys tr; induction xs as [|x xs IH]; intros s s' ys tr H.
  - inversion H; subst. exists []. split; [reflexivity|constructor].
  - inv_feed H. destruct (IH _ _ _ _ Hf) as (tr' & H1 & H2).
    eexists; split; [erewrite feedx_cons by (cbn; rewrite Hs; reflexivity); rewrite H1; reflexivity|].
    cbn. apply mix_l, mix_app_r, H2.
Qed.

Lemma feedx_branch (a m : machine) xs sa s sa' s' ys zs tra tr :
  feedx a sa xs = (sa', ys, tra, None) ->
  feedx m s ys = (s', zs, tr, None) ->
  exists tr', feedx (branch_m a m) (Some (sa, s)) xs = (Some (sa', s'), zs, tr', None) /\ mix tra tr tr'.
Proof.
  revert sa s sa' s' ys zs tra tr; induction xs as [|x xs IH]; intros sa s sa' s' ys zs tra tr Ha H.
  - inversion Ha; subst. inversion H; subst. exists []. split; [reflexivity|constructor].
  - inv_feed Ha. inv_feed H. destruct (IH _ _ _ _ _ _ _ _ Hf Hf0) as (tr' & H1 & H2).
    eexists; split; [erewrite feedx_cons by (cbn; rewrite Hs, Hs0; reflexivity); rewrite H1; reflexivity|].
    rewrite <- app_assoc. apply mix_app_l, mix_app_r, H2.
Qed.

(** fork: feeding the tuple *)
Fixpoint forkx (l : list machine) (s : fork_st l) (xs : list item)
  : fork_st l * list item * list ev * option exc :=
  match xs with
  | []       => (s, [], [], None)
  | x :: xs' => let '(s', x', tr, e) := fork_send l s x in
                match e with
                | Some ex => (s', [x'], tr, Some ex)
                | None    => let '(s'', ys, tr', e') := forkx l s' xs' in (s'', x' :: ys, tr ++ tr', e')
                end
  end.

Lemma forkx_cons (m : machine) ms xs s ss s' ss' ys zs tr trs :
  feedx m s xs = (s', ys, tr, None) -> forkx ms ss ys = (ss', zs, trs, None) ->
  exists tr', forkx (m :: ms) (s, ss) xs = ((s', ss'), zs, tr', None) /\ mix tr trs tr'.
Proof.
  revert s ss s' ss' ys zs tr trs; induction xs as [|x xs IH]; intros s ss s' ss' ys zs tr trs Ha H.
  - inversion Ha; subst. inversion H; subst. exists []. split; [reflexivity|constructor].
  - inv_feed Ha. cbn [forkx] in H.
    destruct (fork_send ms ss x1) as [[[ss1 x2] trs1] [e|]] eqn:E1; [discriminate|].
    destruct (forkx ms ss1 ys1) as [[[ss2 zs2] trs2] e2] eqn:E2. inversion H; subst.
    destruct (IH _ _ _ _ _ _ _ _ Hf E2) as (tr' & H1 & H2).
    exists (tr1 ++ trs1 ++ tr').
    split; [|rewrite <- ?app_assoc; apply mix_app_l, mix_app_r, H2].
    cbn [forkx]. cbn [fork_send]. rewrite Hs, E1, H1. now rewrite app_assoc.
Qed.

Lemma forkx_nil xs : @forkx [] tt xs = (tt, xs, [], None).
Proof. induction xs as [|x xs IH]; cbn; [reflexivity|]. now rewrite IH. Qed.

Lemma feedx_fork l xs s s' ys tr :
  forkx l s xs = (s', ys, tr, None) -> feedx (fork_m l) (Some s) xs = (Some s', ys, tr, None).
Proof.
  revert s s' ys tr; induction xs as [|x xs IH]; intros s s' ys tr H; cbn [forkx] in *.
  - now inversion H.
  - destruct (fork_send l s x) as [[[s1 x1] tr1] [e|]] eqn:E1; [discriminate|].
    destruct (forkx l s1 xs) as [[[s2 zs2] tr2] e2] eqn:E2. inversion H; subst.
    erewrite feedx_cons by (cbn; rewrite E1; reflexivity). rewrite (IH _ _ _ _ E2). reflexivity.
Qed.

Lemma feedx_sink id xs : feedx (sink_m id (fun _ => None)) (Some tt) xs = (Some tt, xs, map (Eff id) xs, None).
Proof.
  induction xs as [|x xs IH]; [reflexivity|].
  erewrite feedx_cons by reflexivity. rewrite IH. reflexivity.
Qed.
Lemma feedx_reduce id u xs a0 a :
  feedx (reduce_m id (fun a x => Ret (u a x)) a0) (Some a) xs = (Some (fold_left u xs a), xs, [], None).
Proof.
  revert a; induction xs as [|x xs IH]; intros a; [reflexivity|].
  erewrite feedx_cons by reflexivity. rewrite IH. reflexivity.
Qed.
Lemma feedx_count id xs k : feedx (count_m id) (Some k) xs = (Some (k + length xs), xs, [], None).
Proof.
  revert k; induction xs as [|x xs IH]; intros k; [cbn; now rewrite Nat.add_0_r|].
  erewrite feedx_cons by reflexivity. rewrite IH. cbn. now rewrite Nat.add_succ_r.
Qed.

(** slice *)
Fixpoint sl_sel (st : nat) (k : nat) (b : option nat) (n : nat) : list bool :=
  match n with
  | 0 => []
  | S n' => match k with
            | S k' => false :: sl_sel st k' b n'
            | 0 => if no_blocks b then false :: sl_sel st 0 b n'
                   else true :: sl_sel st st (dec_blocks b) n'
            end
  end.

Lemma feedx_slice sp (m : machine) xs k b s s' ys tr : sl_close sp = false ->
  let sel := sl_sel (sl_step1 sp) k b (length xs) in
  feedx m s (select sel xs) = (s', ys, tr, None) ->
  exists k' b', feedx (slice_m sp m) (Some (k, b, s)) xs = (Some (k', b', s'), put_back sel ys xs, tr, None).
Proof.
  intros Hc. revert k b s s' ys tr; induction xs as [|x xs IH]; intros k b s s' ys tr; cbn [length sl_sel].
  - intros H; inversion H; subst. do 2 eexists. reflexivity.
  - destruct k as [|k].
    + destruct (no_blocks b) eqn:Eb; cbn [put_back]; intros H.
      * destruct (IH 0 b _ _ _ _ H) as (k' & b' & H1).
        do 2 eexists. erewrite feedx_cons by (cbn; rewrite Eb; reflexivity). rewrite H1. reflexivity.
      * change (select (true :: ?l) (x :: xs)) with (x :: select l xs) in H. inv_feed H.
        destruct (IH _ _ _ _ _ _ Hf) as (k' & b' & H1).
        do 2 eexists.
        erewrite feedx_cons by (cbn; rewrite Eb, Hs; unfold slice_end; rewrite Hc; reflexivity). rewrite H1. reflexivity.
    + intros H. destruct (IH k b _ _ _ _ H) as (k' & b' & H1).
      do 2 eexists. erewrite feedx_cons by (cbn; unfold slice_end; rewrite Hc; reflexivity). rewrite H1. reflexivity.
Qed.

(** the state machine of slice selects the positions of Python's slice *)
Lemma sl_sel_none sp st n i :
  (forall j, i <= j -> in_slice sp j = false) -> 
  forall k, sl_sel st k (Some 0) n = map (in_slice sp) (seq i n).
Proof.
  revert i; induction n as [|n IH]; intros i Hn k; cbn; [reflexivity|].
  rewrite (Hn i) by lia. destruct k; f_equal; apply IH; intros j Hj; apply Hn; lia.
Qed.

Definition blocks_left (sp : slice_spec) (t : nat) : option nat :=
  match slice_blocks sp with None => None | Some N => Some (N - t) end.

Lemma in_slice_block sp t :
  in_slice sp (sl_start sp + t * S (sl_step1 sp)) = negb (no_blocks (blocks_left sp t)).
Proof.
  unfold in_slice, blocks_left, slice_blocks.
  replace (sl_start sp + t * S (sl_step1 sp) - sl_start sp) with (t * S (sl_step1 sp)) by lia.
  rewrite Nat.mod_mul by lia. rewrite Nat.eqb_refl, andb_true_r.
  replace (sl_start sp <=? sl_start sp + t * S (sl_step1 sp)) with true by (symmetry; apply Nat.leb_le; lia).
  destruct (sl_stop sp) as [B|]; [|reflexivity]. cbn [andb].
  set (st := S (sl_step1 sp)). set (A := sl_start sp).
  pose proof (Nat.div_mod (B - A + sl_step1 sp) st ltac:(lia)) as Hd.
  pose proof (Nat.mod_upper_bound (B - A + sl_step1 sp) st ltac:(lia)) as Hm.
  set (N := (B - A + sl_step1 sp) / st) in *.
  assert (HS : st = S (sl_step1 sp)) by reflexivity. clearbody st.
  destruct (Nat.ltb_spec (A + t * st) B) as [Hlt|Hge].
  - destruct (N - t) eqn:E; [|reflexivity]. exfalso. assert (N <= t) by lia. nia.
  - destruct (N - t) eqn:E; [reflexivity|]. exfalso. assert (t + 1 <= N) by lia. nia.
Qed.

Lemma in_slice_between sp t r : 0 < r -> r <= sl_step1 sp ->
  in_slice sp (sl_start sp + t * S (sl_step1 sp) + r) = false.
Proof.
  intros Hr1 Hr2. unfold in_slice.
  replace (sl_start sp + t * S (sl_step1 sp) + r - sl_start sp) with (r + t * S (sl_step1 sp)) by lia.
  rewrite Nat.mod_add by lia. rewrite Nat.mod_small by lia.
  replace (r =? 0) with false by (symmetry; apply Nat.eqb_neq; lia). apply andb_false_r.
Qed.

Lemma blocks_left_dec sp t : dec_blocks (blocks_left sp t) = blocks_left sp (S t).
Proof. unfold blocks_left. destruct (slice_blocks sp); cbn; [f_equal; lia | reflexivity]. Qed.

Lemma in_slice_beyond sp j t : no_blocks (blocks_left sp t) = true ->
  sl_start sp + t * S (sl_step1 sp) <= j -> in_slice sp j = false.
Proof.
  intros Hn Hj.
  destruct (in_slice sp j) eqn:E; [|reflexivity]. exfalso.
  assert (exists u, j = sl_start sp + u * S (sl_step1 sp)) as [u ->].
  { unfold in_slice in E. rewrite !andb_true_iff in E. destruct E as [[E1 _] E2].
    apply Nat.leb_le in E1. apply Nat.eqb_eq in E2. apply Nat.mod_divides in E2; [|lia].
    destruct E2 as [u Hu]. exists u. lia. }
  rewrite in_slice_block in E. unfold blocks_left in *. destruct (slice_blocks sp) as [N|]; [|discriminate].
  assert (t <= u) by nia. cbn in *. destruct (N - t) eqn:E1; [|discriminate].
  replace (N - u) with 0 in E by lia. discriminate.
Qed.

(** main: in block t, at position i = start + t*step - k *)
Lemma sl_sel_spec sp n : forall i k t,
  i + k = sl_start sp + t * S (sl_step1 sp) ->
  (t = 0 \/ k <= sl_step1 sp) ->
  sl_sel (sl_step1 sp) k (blocks_left sp t) n = map (in_slice sp) (seq i n).
Proof.
  induction n as [|n IH]; intros i k t Hi Hk; cbn [sl_sel seq map]; [reflexivity|].
  destruct k as [|k].
  - replace i with (sl_start sp + t * S (sl_step1 sp)) in * by lia.
    rewrite in_slice_block. destruct (no_blocks (blocks_left sp t)) eqn:E; cbn [negb].
    + f_equal. unfold blocks_left in *. destruct (slice_blocks sp) as [N|] eqn:EN; [|discriminate].
      destruct (N - t) eqn:Nt; [|discriminate]. apply sl_sel_none. intros j Hj.
      apply (in_slice_beyond sp j t); [unfold blocks_left; rewrite EN, Nt; reflexivity | lia].
    + f_equal. rewrite blocks_left_dec. apply IH; [lia | lia].
  - f_equal; [|apply IH; lia].
    symmetry. destruct Hk as [->|Hk].
    + unfold in_slice. replace (sl_start sp <=? i) with false by (symmetry; apply Nat.leb_gt; lia). reflexivity.
    + destruct t as [|t].
      * unfold in_slice. replace (sl_start sp <=? i) with false by (symmetry; apply Nat.leb_gt; lia). reflexivity.
      * replace i with (sl_start sp + t * S (sl_step1 sp) + (S (sl_step1 sp) - S k)) by lia.
        apply in_slice_between; lia.
Qed.

Lemma slice_start_sel sp n :
  sl_sel (sl_step1 sp) (slice_extra sp + sl_start sp) (slice_blocks sp) n = map (in_slice sp) (seq 0 n).
Proof.
  assert (H0 : slice_blocks sp = blocks_left sp 0).
  { unfold blocks_left. destruct (slice_blocks sp); [f_equal; lia | reflexivity]. }
  destruct (slice_extra sp) eqn:E.
  - rewrite H0. apply sl_sel_spec; [lia | now left].
  - assert (Hb : slice_blocks sp = Some 0).
    { unfold slice_extra, slice_blocks in *. destruct (sl_stop sp) as [B|]; [|discriminate].
      destruct (Nat.leb_spec B (sl_start sp)); [|discriminate].
      replace (B - sl_start sp) with 0 by lia. cbn [Nat.add]. rewrite Nat.div_small; [reflexivity|lia]. }
    rewrite Hb. apply sl_sel_none. intros j _.
    unfold slice_extra, in_slice in *. destruct (sl_stop sp) as [B|]; [|discriminate].
    destruct (Nat.leb_spec B (sl_start sp)); [|discriminate].
    destruct (Nat.leb_spec (sl_start sp) j); [|reflexivity].
    destruct (Nat.ltb_spec j B); [lia|reflexivity].
Qed.

(** ---- the theorem ---- *)
Lemma embed_fork_ids l : flat_map ids (map embed l) = flat_map (fun c => @ids item (embed c)) l.
Proof. induction l; cbn; congruence. Qed.

Fixpoint seenf (id : nat) (l : list pnode) (xs : list item) : list item :=
  match l with [] => [] | c :: l' => seen id c xs ++ seenf id l' (after c xs) end.
Fixpoint outf (id : nat) (l : list pnode) (xs : list item) : list (fres item) :=
  match l with [] => [] | c :: l' => outcome_of id c xs ++ outf id l' (after c xs) end.

Lemma seenf_fold id l xs acc :
  snd (fold_left (fun '(ys, acc) c => (after c ys, acc ++ seen id c ys)) l (xs, acc)) = acc ++ seenf id l xs.
Proof.
  revert xs acc; induction l as [|c l IH]; intros xs acc; cbn; [now rewrite app_nil_r|].
  rewrite IH, app_assoc. reflexivity.
Qed.
Lemma outf_fold id l xs acc :
  snd (fold_left (fun '(ys, acc) c => (after c ys, acc ++ outcome_of id c ys)) l (xs, acc)) = acc ++ outf id l xs.
Proof.
  revert xs acc; induction l as [|c l IH]; intros xs acc; cbn; [now rewrite app_nil_r|].
  rewrite IH, app_assoc. reflexivity.
Qed.

Definition computes (n : pnode) : Prop :=
  forall xs, exists s' tr,
    feedx (den (embed n)) (start (den (embed n))) xs = (s', after n xs, tr, None) /\
    (forall id, calls id tr = seen id n xs) /\ (forall id, results id tr = []) /\
    (forall id, calls id (snd (close (den (embed n)) s')) = []) /\
    (forall id, results id (snd (close (den (embed n)) s')) = outcome_of id n xs).

Lemma NoDup_app_l {A} (a b : list A) : NoDup (a ++ b) -> NoDup a.
Proof. induction a; cbn; intros H; [constructor|]. inversion H; subst. constructor; [|auto]. intros Hi; apply H2, in_app_iff; auto. Qed.
Lemma NoDup_app_r {A} (a b : list A) : NoDup (a ++ b) -> NoDup b.
Proof. induction a; cbn; intros H; [exact H|]. inversion H; auto. Qed.
Lemma NoDup_app_disj {A} (a b : list A) x : NoDup (a ++ b) -> In x a -> ~ In x b.
Proof.
  induction a as [|y a IH]; cbn; intros H [].
  - subst. inversion H; subst. intros Hi; apply H2, in_app_iff; auto.
  - inversion H; auto.
Qed.

Lemma slice_sel_sel a b s (xs : list item) :
  sl_sel s (slice_extra {| sl_start := a; sl_stop := b; sl_step1 := s; sl_close := false |} + a)
     (slice_blocks {| sl_start := a; sl_stop := b; sl_step1 := s; sl_close := false |}) (length xs)
  = slice_sel a b s xs.
Proof.
  unfold slice_sel.
  rewrite <- slice_start_sel. reflexivity.
Qed.

Lemma in_dec_nat (x : nat) l : {In x l} + {~ In x l}.
Proof. apply in_dec, Nat.eq_dec. Qed.

Lemma computes_all n : NoDup (ids (embed n)) -> computes n.
Proof.
  induction n using pnode_ind'; intros Hnd xs; cbn [embed den] in *.
  - exists (Some tt), (map (Eff id) xs). split; [|split; [|split; [|split]]]; try reflexivity.
    + apply feedx_sink.
    + intros id'. cbn [seen]. induction xs as [|x xs IH]; cbn [map]; [destruct (id =? id'); reflexivity|].
      rewrite calls_cons, IH. unfold calls. cbn. destruct (id =? id'); reflexivity.
    + intros id'. induction xs; cbn [map]; auto.
  - exists (Some (fold_left u xs a)), []. split; [|split; [|split; [|split]]]; try reflexivity.
    + apply feedx_reduce.
    + intros id'. unfold results. cbn. rewrite app_nil_r. reflexivity.
  - exists (Some (0 + length xs)), []. split; [|split; [|split; [|split]]]; try reflexivity.
    + apply feedx_count.
    + intros id'. unfold results. cbn. rewrite app_nil_r. reflexivity.
  - destruct (IHn Hnd (map f xs)) as (s' & tr & H1 & H2 & H3 & H4 & H5).
    exists (Some s'), tr. split; [|auto]. cbn. eapply feedx_map, H1.
  - destruct (IHn Hnd (map f xs)) as (s' & tr & H1 & H2 & H3 & H4 & H5).
    exists (Some s'), tr. split; [|auto]. cbn. eapply feedx_upd, H1.
  - destruct (IHn Hnd (flat_map f xs)) as (s' & tr & H1 & H2 & H3 & H4 & H5).
    exists (Some s'), tr. split; [|auto]. cbn. eapply feedx_flat, H1.
  - destruct (IHn Hnd (filter p xs)) as (s' & tr & H1 & H2 & H3 & H4 & H5).
    exists (Some s'), tr. split; [|auto]. cbn. eapply feedx_filter, H1.
  - cbn in Hnd. inversion Hnd; subst.
    destruct (IHn H2 (filter p xs)) as (s' & tr & H1' & H2' & H3 & H4 & H5).
    eexists (Some (_, _, s')), tr. split; [|split; [|split; [|split]]]; auto.
    + cbn. eapply (feedx_cfilter id p _ xs _ _ _ _ 0 0), H1'.
    + intros id'. cbn. rewrite calls_app, H4. reflexivity.
    + intros id'. cbn. rewrite results_app, H5. unfold results. cbn. rewrite app_nil_r. reflexivity.
  - cbn in Hnd. inversion Hnd; subst.
    destruct (IHn H2 xs) as (s' & tr & H1' & H2' & H3 & H4 & H5).
    destruct (feedx_spy id _ _ _ _ _ _ H1') as (tr' & Hf & Hm).
    exists (Some s'), tr'.
    assert (Hc : forall i, calls i (map (@Eff item id) xs) = if id =? i then xs else []).
    { intros i. clear. induction xs as [|x xs IH]; cbn [map]; [destruct (id =? i); reflexivity|].
      rewrite calls_cons, IH. unfold calls. cbn. destruct (id =? i); reflexivity. }
    split; [|split; [|split; [|split]]]; auto.
    + intros i. rewrite (calls_mix i _ _ _ Hm).
      * cbn. rewrite Hc, H2'. reflexivity.
      * destruct (Nat.eqb_spec id i).
        -- right. subst i. apply (calls_none id (ids (embed n))); [|exact H1].
           pose proof (feedx_only _ _ (only_node (embed n)) xs (start (den (embed n)))) as Ho. rewrite H1' in Ho. exact Ho.
        -- left. rewrite Hc. apply Nat.eqb_neq in n0. now rewrite n0.
    + intros i. eapply results_mix; [exact Hm | | apply H3]. clear. induction xs; cbn [map]; auto.
  - cbn in Hnd.
    destruct (IHn1 (NoDup_app_l _ _ Hnd) xs) as (sa & tra & Ha1 & Ha2 & Ha3 & Ha4 & Ha5).
    destruct (IHn2 (NoDup_app_r _ _ Hnd) (after n1 xs)) as (s' & tr & H1 & H2 & H3 & H4 & H5).
    destruct (feedx_branch _ _ _ _ _ _ _ _ _ _ _ Ha1 H1) as (tr' & Hf & Hm).
    exists (Some (sa, s')), tr'. split; [|split; [|split; [|split]]].
    + exact Hf.
    + intros i. rewrite (calls_mix i _ _ _ Hm).
      * cbn. rewrite Ha2, H2. reflexivity.
      * destruct (in_dec_nat i (ids (embed n1))) as [Hi|Hi].
        -- right. apply (calls_none i (ids (embed n2))); [|eapply NoDup_app_disj; eassumption].
           pose proof (feedx_only _ _ (only_node (embed n2)) (after n1 xs) (start (den (embed n2)))) as Ho. rewrite H1 in Ho. exact Ho.
        -- left. apply (calls_none i (ids (embed n1))); [|exact Hi].
           pose proof (feedx_only _ _ (only_node (embed n1)) xs (start (den (embed n1)))) as Ho. rewrite Ha1 in Ho. exact Ho.
    + intros i. eapply results_mix; [exact Hm | apply Ha3 | apply H3].
    + intros i. cbn. rewrite calls_app, H4, Ha4. reflexivity.
    + intros i. cbn. rewrite results_app, H5, Ha5. reflexivity.
  - assert (Hl : NoDup (flat_map (fun c => ids (embed c)) l) -> forall xs, exists s' tr,
       forkx (map den (map embed l)) (fork_start (map den (map embed l))) xs =
          (s', fold_left (fun ys c => after c ys) l xs, tr, None) /\
       evs_in (flat_map (fun c => ids (embed c)) l) tr /\
       (forall id, calls id tr = seenf id l xs) /\ (forall id, results id tr = []) /\
       (forall id, calls id (fork_close (map den (map embed l)) s') = []) /\
       (forall id, results id (fork_close (map den (map embed l)) s') = outf id l xs)).
    { clear xs Hnd. induction H as [|c l Hc Hl IHl]; intros Hnd xs; cbn in *.
      - exists tt, []. rewrite forkx_nil. repeat split; constructor.
      - destruct (Hc (NoDup_app_l _ _ Hnd) xs) as (sa & tra & Ha1 & Ha2 & Ha3 & Ha4 & Ha5).
        destruct (IHl (NoDup_app_r _ _ Hnd) (after c xs)) as (s' & tr & H1 & Ho & H2 & H3 & H4 & H5).
        destruct (forkx_cons _ _ _ _ _ _ _ _ _ _ _ Ha1 H1) as (tr' & Hf & Hm).
        pose proof (feedx_only _ _ (only_node (embed c)) xs (start (den (embed c)))) as Hoc. rewrite Ha1 in Hoc. cbn in Hoc.
        exists (sa, s'), tr'. split; [exact Hf|]. split; [|split; [|split; [|split]]].
        + clear -Hm Hoc Ho. revert Hoc Ho. induction Hm as [|e a b c' H IH|e a b c' H IH]; intros Hoc Ho.
          * constructor.
          * inversion Hoc; subst. constructor; [apply in_app_iff; now left | apply IH; assumption].
          * inversion Ho; subst. constructor; [apply in_app_iff; now right | apply IH; assumption].
        + intros i. rewrite (calls_mix i _ _ _ Hm); [now rewrite Ha2, H2|].
          destruct (in_dec_nat i (ids (embed c))) as [Hi|Hi].
          * right. eapply calls_none; [exact Ho | eapply NoDup_app_disj; eassumption].
          * left. eapply calls_none; eassumption.
        + intros i. eapply results_mix; [exact Hm | apply Ha3 | apply H3].
        + intros i. rewrite calls_app, H4, Ha4. reflexivity.
        + intros i. rewrite results_app, H5, Ha5. reflexivity. }
    cbn in Hnd. rewrite embed_fork_ids in Hnd.
    destruct (Hl Hnd xs) as (s' & tr & H1 & _ & H2 & H3 & H4 & H5).
    exists (Some s'), tr. split; [|split; [|split; [|split]]]; auto.
    + cbn. apply feedx_fork, H1.
    + intros i. cbn. rewrite seenf_fold. apply H2.
    + intros i. cbn [outcome_of]. rewrite outf_fold. apply H5.
  - destruct (IHn Hnd (select (slice_sel a b s xs) xs)) as (s' & tr & H1 & H2 & H3 & H4 & H5).
    rewrite <- slice_sel_sel in H1.
    set (sp := {| sl_start := a; sl_stop := b; sl_step1 := s; sl_close := false |}) in *.
    destruct (feedx_slice sp (den (embed n)) xs _ _ _ _ _ _ eq_refl H1) as (k' & b' & Hf).
    exists (Some (k', b', s')), tr. split; [|auto].
    cbn [after]. rewrite <- slice_sel_sel. exact Hf.
Qed.

Lemma pure_run (n : pnode) xs : NoDup (ids (embed n)) ->
  o_raised (run (embed n) xs) = None /\ o_read (run (embed n) xs) = length xs /\
  (forall id, calls id (o_trace (run (embed n) xs)) = seen id n xs) /\
  (forall id, results id (o_trace (run (embed n) xs)) = outcome_of id n xs).
Proof.
  intros Hnd. destruct (computes_all n Hnd xs) as (s' & tr & H1 & H2 & H3 & H4 & H5).
  unfold run, push. rewrite (feedx_feed _ _ _ _ _ _ H1). cbn.
  split; [|split; [|split]]; auto.
  - intros id. rewrite calls_app, H2, H4, app_nil_r. reflexivity.
  - intros id. rewrite results_app, H3, H5. reflexivity.
Qed.
End L.
