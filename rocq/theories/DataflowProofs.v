From Coq Require Import List Bool Arith Lia Permutation.
Import ListNotations.
From Verif Require Import DataflowModel DataflowSpec.

Section Proofs.
Context {item : Type}.
Notation ev := (ev item). Notation node := (node item). Notation machine := (machine item).

(** Induction principle for [node] (nested lists) *)
Lemma node_ind' (P : node -> Prop)
  (Hsink : forall id f, P (NSink id f))
  (Hred : forall id u a, P (NReduce id u a))
  (Hcnt : forall id, P (NCount id))
  (Hmap : forall f n, P n -> P (NMap f n))
  (Hupd : forall f n, P n -> P (NUpd f n))
  (Hflat : forall f n, P n -> P (NFlat f n))
  (Hflatu : forall f n, P n -> P (NFlatUpd f n))
  (Hfil : forall p n, P n -> P (NFilter p n))
  (Hcfil : forall id p n, P n -> P (NCFilter id p n))
  (Hspy : forall id f n, P n -> P (NSpy id f n))
  (Hbr : forall a n, P a -> P n -> P (NBranch a n))
  (Hfork : forall l, Forall P l -> P (NFork l))
  (Hsl : forall sp n, P n -> P (NSlice sp n)) : forall n, P n.
Proof.
  fix IH 1. intros n. destruct n.
  - apply Hsink. - apply Hred. - apply Hcnt.
  - apply Hmap, IH. - apply Hupd, IH. - apply Hflat, IH. - apply Hflatu, IH.
  - apply Hfil, IH. - apply Hcfil, IH. - apply Hspy, IH.
  - apply Hbr; apply IH.
  - apply Hfork. induction l as [|a l IHl]; constructor; [apply IH | exact IHl].
  - apply Hsl, IH.
Qed.

(** ---- feed ---- *)
Lemma feed_app (m : machine) xs ys s :
  feed m s (xs ++ ys) =
  (let '(s', tr, k, e) := feed m s xs in
   match e with
   | Some ex => (s', tr, k, Some ex)
   | None => let '(s'', tr', k', e') := feed m s' ys in (s'', tr ++ tr', k + k', e')
   end).
Proof.
  revert s; induction xs as [|x xs IH]; intros s; cbn.
  - destruct (feed m s ys) as [[[s'' tr'] k'] e']; reflexivity.
  - destruct (send m s x) as [[[s' x'] tr] e]; destruct e; [reflexivity|].
    rewrite IH. destruct (feed m s' xs) as [[[s1 tr1] k1] e1]; destruct e1; [reflexivity|].
    destruct (feed m s1 ys) as [[[s2 tr2] k2] e2]. rewrite app_assoc. reflexivity.
Qed.

(** complete trace of a run, always closing at the end *)
Definition ctrace (m : machine) (s : St m) (xs : list item) : list ev :=
  let '(s', tr, _, _) := feed m s xs in tr ++ snd (close m s').

(** ---- futures resolved exactly once ---- *)
Lemma futs_app a b : @futs item (a ++ b) = futs a ++ futs b.
Proof. unfold futs. apply flat_map_app. Qed.

Record once (m : machine) (F : list nat) (ok : St m -> Prop) : Prop := {
  once_start : ok (start m);
  once_send : forall s x, ok s ->
     let '(s', _, tr, e) := send m s x in
     match e with
     | None => ok s' /\ futs tr = []
     | Some _ => snd (close m s') = [] /\ Permutation (futs tr) F
     end;
  once_close : forall s, ok s -> Permutation (futs (snd (close m s))) F /\ snd (close m (fst (close m s))) = []
}.

(** Generic lifting: children states of the body are either fine or finished *)
Lemma once_generator R (r0 : R) body fin F (okR : R -> Prop) :
  okR r0 ->
  (forall r x, okR r -> let '(r', _, tr, e) := body r x in
     match e with
     | None => okR r' /\ futs tr = []
     | Some _ => Permutation (futs tr ++ futs (fin r')) F
     end) ->
  (forall r, okR r -> Permutation (futs (fin r)) F) ->
  once (generator R r0 body fin) F (fun s => match s with Some r => okR r | None => False end).
Proof.
  intros H0 Hb Hf. constructor.
  - exact H0.
  - intros [r|] x Hs; [|contradiction]. cbn.
    specialize (Hb r x Hs). destruct (body r x) as [[[r' x'] tr] e]. destruct e.
    + split; [reflexivity|]. rewrite futs_app. exact Hb.
    + exact Hb.
  - intros [r|] Hs; [|contradiction]. cbn. split; [apply Hf, Hs | reflexivity].
Qed.

Definition Once (m : machine) F := exists ok, once m F ok.

Lemma send_all_once m F ok : once m F ok -> forall ys s, ok s ->
  let '(s', tr, e) := send_all m s ys in
  match e with
  | None => ok s' /\ futs tr = []
  | Some _ => snd (close m s') = [] /\ Permutation (futs tr) F
  end.
Proof.
  intros H ys; induction ys as [|y ys IH]; intros s Hs; cbn; [now split|].
  pose proof (once_send _ _ _ H s y Hs) as Hy.
  destruct (send m s y) as [[[s' x'] tr] e]; destruct e; [exact Hy|].
  destruct Hy as [Hs' Ht]. specialize (IH s' Hs').
  destruct (send_all m s' ys) as [[s'' tr'] e']; destruct e'; rewrite futs_app, Ht; exact IH.
Qed.

Lemma send_upds_once m F ok : once m F ok -> forall us s x, ok s ->
  let '(s', _, tr, e) := send_upds m s x us in
  match e with
  | None => ok s' /\ futs tr = []
  | Some _ => snd (close m s') = [] /\ Permutation (futs tr) F
  end.
Proof.
  intros H us; induction us as [|u us IH]; intros s x Hs; cbn; [now split|].
  pose proof (once_send _ _ _ H s (u x) Hs) as Hy.
  destruct (send m s (u x)) as [[[s' x'] tr] e]; destruct e; [exact Hy|].
  destruct Hy as [Hs' Ht]. specialize (IH s' x' Hs').
  destruct (send_upds m s' x' us) as [[[s'' x''] tr'] e']; destruct e'; rewrite futs_app, Ht; exact IH.
Qed.

Lemma perm_dead (a b : list ev) F : b = [] -> Permutation (futs a) F -> Permutation (futs a ++ futs b) F.
Proof. intros -> H. cbn. now rewrite app_nil_r. Qed.

Lemma once_node (n : node) : Once (den n) (fut_ids n).
Proof.
  induction n using node_ind'; cbn [den fut_ids].
  - eexists; apply (once_generator _ _ _ _ _ (fun _ => True)); try easy.
    intros r x _; cbn. destruct (f x); cbn; auto.
  - eexists; apply (once_generator _ _ _ _ _ (fun _ => True)); try easy.
    intros r x _; destruct (u r x); cbn; auto.
  - eexists; apply (once_generator _ _ _ _ _ (fun _ => True)); cbn; easy.
  - destruct IHn as [ok H]. eexists; apply (once_generator _ _ _ _ _ ok).
    + apply H.
    + intros s x Hs. destruct (f x) as [y|e].
      * pose proof (once_send _ _ _ H s y Hs) as Hy.
        destruct (send (den n) s y) as [[[s' x'] tr] [e|]]; [apply perm_dead; tauto|exact Hy].
      * cbn. apply H, Hs.
    + intros s Hs. apply H, Hs.
  - destruct IHn as [ok H]. eexists; apply (once_generator _ _ _ _ _ ok).
    + apply H.
    + intros s x Hs. destruct (f x) as [y|e].
      * pose proof (once_send _ _ _ H s y Hs) as Hy.
        destruct (send (den n) s y) as [[[s' x'] tr] [e|]]; [apply perm_dead; tauto|exact Hy].
      * cbn. apply H, Hs.
    + intros s Hs. apply H, Hs.
  - destruct IHn as [ok H]. eexists; apply (once_generator _ _ _ _ _ ok).
    + apply H.
    + intros s x Hs. destruct (f x) as [ys oe].
      pose proof (send_all_once _ _ _ H ys s Hs) as Hy.
      destruct (send_all (den n) s ys) as [[s' tr] [e|]]; [apply perm_dead; tauto|].
      destruct Hy as [Hs' Ht]. destruct oe; [|now split].
      rewrite Ht; cbn. apply H, Hs'.
    + intros s Hs. apply H, Hs.
  - destruct IHn as [ok H]. eexists; apply (once_generator _ _ _ _ _ ok).
    + apply H.
    + intros s x Hs. destruct (f x) as [ys oe].
      pose proof (send_upds_once _ _ _ H ys s x Hs) as Hy.
      destruct (send_upds (den n) s x ys) as [[[s' x'] tr] [e|]]; [apply perm_dead; tauto|].
      destruct Hy as [Hs' Ht]. destruct oe; [|now split].
      rewrite Ht; cbn. apply H, Hs'.
    + intros s Hs. apply H, Hs.
  - destruct IHn as [ok H]. eexists; apply (once_generator _ _ _ _ _ ok).
    + apply H.
    + intros s x Hs. destruct (p x) as [[|]|e].
      * pose proof (once_send _ _ _ H s x Hs) as Hy.
        destruct (send (den n) s x) as [[[s' x'] tr] [e|]]; [apply perm_dead; tauto|exact Hy].
      * now split.
      * cbn. apply H, Hs.
    + intros s Hs. apply H, Hs.
  - destruct IHn as [ok H].
    assert (Hclose : forall F' (a : list ev) k l, Permutation (futs a) F' ->
                Permutation (futs (a ++ [Fut id (RPassed k l)])) (id :: F')).
    { intros F' a k l Ha. rewrite futs_app. cbn. rewrite Ha. symmetry. apply Permutation_cons_append. }
    eexists; apply (once_generator _ _ _ _ _ (fun r => ok (snd r))).
    + apply H.
    + intros [[np nf] s] x Hs. cbn in Hs. destruct (p x) as [[|]|e].
      * pose proof (once_send _ _ _ H s x Hs) as Hy.
        destruct (send (den n) s x) as [[[s' x'] tr] [e|]].
        -- destruct Hy as [Hd Hp]. rewrite <- futs_app, app_assoc. apply Hclose.
           rewrite Hd, app_nil_r. exact Hp.
        -- exact Hy.
      * now split.
      * cbn -[futs]. apply Hclose, H, Hs.
    + intros [[np nf] s] Hs. apply Hclose, H, Hs.
  - destruct IHn as [ok H]. eexists; apply (once_generator _ _ _ _ _ ok).
    + apply H.
    + intros s x Hs. destruct (f x) as [e|].
      * cbn. apply H, Hs.
      * pose proof (once_send _ _ _ H s x Hs) as Hy.
        destruct (send (den n) s x) as [[[s' x'] tr] [e|]].
        -- cbn. apply perm_dead; tauto.
        -- exact Hy.
    + intros s Hs. apply H, Hs.
  - destruct IHn1 as [oka Ha]. destruct IHn2 as [okn Hn].
    eexists; apply (once_generator _ _ _ _ _ (fun r => oka (fst r) /\ okn (snd r))).
    + split; [apply Ha | apply Hn].
    + intros [sa sn] x [Hsa Hsn]. cbn in Hsa, Hsn.
      pose proof (once_send _ _ _ Ha sa x Hsa) as H1.
      destruct (send (den n1) sa x) as [[[sa' x'] tr] [e|]].
      * destruct H1 as [Hd Hp]. rewrite futs_app, Hd. cbn. rewrite app_nil_r.
        apply Permutation_app; [exact Hp | apply Hn, Hsn].
      * destruct H1 as [Hsa' Ht].
        pose proof (once_send _ _ _ Hn sn x' Hsn) as H2.
        destruct (send (den n2) sn x') as [[[sn' x''] tr'] [e|]].
        -- destruct H2 as [Hd Hp]. rewrite !futs_app, Ht, Hd. cbn.
           rewrite Permutation_app_comm. apply Permutation_app; [apply Ha, Hsa' | exact Hp].
        -- rewrite futs_app, Ht. tauto.
    + intros [sa sn] [Hsa Hsn]. rewrite futs_app, Permutation_app_comm.
      apply Permutation_app; [apply Ha, Hsa | apply Hn, Hsn].
  - assert (Hl : exists okl : fork_st (map den l) -> Prop,
       okl (fork_start (map den l)) /\
       (forall r x, okl r -> let '(r', _, tr, e) := fork_send (map den l) r x in
         match e with
         | None => okl r' /\ futs tr = []
         | Some _ => Permutation (futs tr ++ futs (fork_close (map den l) r')) (flat_map fut_ids l)
         end) /\
       (forall r, okl r -> Permutation (futs (fork_close (map den l) r)) (flat_map fut_ids l))).
    { induction H as [|n l [ok Hn] Hl IHl]; cbn -[futs].
      - exists (fun _ => True). repeat split; constructor.
      - destruct IHl as (okl & Hl0 & Hls & Hlc).
        exists (fun r => ok (fst r) /\ okl (snd r)). split; [|split].
        + split; [apply Hn | exact Hl0].
        + intros [s1 ss] x [H1 Hss]. cbn in H1, Hss.
          pose proof (once_send _ _ _ Hn s1 x H1) as Hs.
          destruct (send (den n) s1 x) as [[[s1' x'] tr] [e|]].
          * destruct Hs as [Hd Hp]. cbv beta iota. rewrite futs_app, Hd. cbn. apply Permutation_app; [exact Hp|].
            apply Hlc, Hss.
          * destruct Hs as [H1' Ht]. specialize (Hls ss x' Hss).
            destruct (fork_send (map den l) ss x') as [[[ss' x''] tr'] [e|]].
            -- cbv beta iota. rewrite !futs_app, Ht. cbn. rewrite Permutation_app_swap_app.
               apply Permutation_app; [apply Hn, H1' | exact Hls].
            -- rewrite futs_app, Ht. tauto.
        + intros [s1 ss] [H1 Hss]. cbv beta iota. rewrite futs_app. apply Permutation_app; [apply Hn, H1 | apply Hlc, Hss]. }
    destruct Hl as (okl & Hl0 & Hls & Hlc).
    eexists; apply (once_generator _ _ _ _ _ okl); assumption.
  - destruct IHn as [ok H]. eexists; apply (once_generator _ _ _ _ _ (fun r => ok (snd r))).
    + apply H.
    + intros [[k b] s] x Hs. cbn in Hs. destruct k as [|k].
      * destruct (no_blocks b); [now split|].
        pose proof (once_send _ _ _ H s x Hs) as Hy.
        destruct (send (den n) s x) as [[[s' x'] tr] [e|]]; [apply perm_dead; tauto|].
        destruct Hy as [Hs' Ht]. destruct (slice_end _ _ _); [|now split].
        rewrite Ht. apply H, Hs'.
      * destruct (slice_end _ _ _); [|now split]. cbn. apply H, Hs.
    + intros [[k b] s] Hs. apply H, Hs.
Qed.

Lemma feed_once m F ok : once m F ok -> forall xs s, ok s ->
  let '(s', tr, _, e) := feed m s xs in
  match e with
  | None => ok s' /\ futs tr = []
  | Some _ => snd (close m s') = [] /\ Permutation (futs tr) F
  end.
Proof.
  intros H xs; induction xs as [|y ys IH]; intros s Hs; cbn; [now split|].
  pose proof (once_send _ _ _ H s y Hs) as Hy.
  destruct (send m s y) as [[[s' x'] tr] e]; destruct e; [exact Hy|].
  destruct Hy as [Hs' Ht]. specialize (IH s' Hs').
  destruct (feed m s' ys) as [[[s'' tr'] k] e']; destruct e'; rewrite futs_app, Ht; exact IH.
Qed.

Lemma run_futs (n : node) xs : Permutation (futs (o_trace (run n xs))) (fut_ids n).
Proof.
  destruct (once_node n) as [ok H]. unfold run, push.
  pose proof (feed_once _ _ _ H xs _ (once_start _ _ _ H)) as Hf.
  destruct (feed (den n) (start (den n)) xs) as [[[s tr] k] [[|c]|]]; cbn -[futs].
  - destruct Hf as [Hd Hp]. rewrite Hd, app_nil_r. exact Hp.
  - tauto.
  - destruct Hf as [Hs Ht]. rewrite futs_app, Ht. apply H, Hs.
Qed.

(** the trace of a run is a complete trace: the state left behind has nothing to close *)
Lemma run_ctrace (n : node) xs : o_trace (run n xs) = ctrace (den n) (start (den n)) xs.
Proof.
  destruct (once_node n) as [ok H]. unfold run, push, ctrace.
  pose proof (feed_once _ _ _ H xs _ (once_start _ _ _ H)) as Hf.
  destruct (feed (den n) (start (den n)) xs) as [[[s tr] k] [[|c]|]]; cbn -[futs]; try reflexivity.
  destruct Hf as [Hd _]. rewrite Hd, app_nil_r. reflexivity.
Qed.

(** ---- only own identifiers ---- *)
Definition evs_in (l : list nat) (tr : list ev) : Prop := Forall (fun e => In (ev_id e) l) tr.

Record only (m : machine) (l : list nat) : Prop := {
  only_send : forall s x, evs_in l (snd (fst (send m s x)));
  only_close : forall s, evs_in l (snd (close m s)) }.

Lemma only_generator R (r0 : R) body fin l :
  (forall r x, evs_in l (snd (fst (body r x)))) ->
  (forall r, evs_in l (fin r)) -> only (generator R r0 body fin) l.
Proof.
  intros Hb Hf. constructor.
  - intros [r|] x; cbn; [|constructor].
    specialize (Hb r x). destruct (body r x) as [[[r' x'] tr] [e|]]; cbn in *; [|exact Hb].
    apply Forall_app; split; [exact Hb | apply Hf].
  - intros [r|]; cbn; [apply Hf | constructor].
Qed.

Lemma evs_in_sub l l' tr : (forall i, In i l -> In i l') -> evs_in l tr -> evs_in l' tr.
Proof. intros H. apply Forall_impl. intros a Ha. apply H, Ha. Qed.

Lemma send_all_only m l : only m l -> forall ys s, evs_in l (snd (fst (send_all m s ys))).
Proof.
  intros H ys; induction ys as [|y ys IH]; intros s; cbn; [constructor|].
  pose proof (only_send _ _ H s y) as Hy. destruct (send m s y) as [[[s' x'] tr] [e|]]; cbn in *; [exact Hy|].
  specialize (IH s'). destruct (send_all m s' ys) as [[s'' tr'] e']. cbn in *. now apply Forall_app.
Qed.

Lemma send_upds_only m l : only m l -> forall us s x, evs_in l (snd (fst (send_upds m s x us))).
Proof.
  intros H us; induction us as [|u us IH]; intros s x; cbn; [constructor|].
  pose proof (only_send _ _ H s (u x)) as Hy. destruct (send m s (u x)) as [[[s' x'] tr] [e|]]; cbn in *; [exact Hy|].
  specialize (IH s' x'). destruct (send_upds m s' x' us) as [[[s'' x''] tr'] e']. cbn in *. now apply Forall_app.
Qed.

Lemma fork_only ls l : Forall (fun m => only m l) ls ->
  (forall s x, evs_in l (snd (fst (fork_send ls s x)))) /\ (forall s, evs_in l (fork_close ls s)).
Proof.
  induction 1 as [|m ms Hm Hms [IH1 IH2]]; cbn; split.
  - constructor. - constructor.
  - intros [s ss] x. pose proof (only_send _ _ Hm s x) as Hy.
    destruct (send m s x) as [[[s' x'] tr] [e|]]; cbn in *; [exact Hy|].
    specialize (IH1 ss x'). destruct (fork_send ms ss x') as [[[s'' x''] tr'] e']. cbn in *. now apply Forall_app.
  - intros [s ss]. apply Forall_app; split; [apply Hm | apply IH2].
Qed.

Lemma only_sub m l l' : (forall i, In i l -> In i l') -> only m l -> only m l'.
Proof.
  intros H [H1 H2]. constructor; intros; eapply evs_in_sub; eauto.
Qed.

Ltac only_tac H :=
  first [ apply (only_close _ _ H) | constructor ].

Lemma only_node (n : node) : only (den n) (ids n).
Proof.
  induction n using node_ind'; cbn [den ids].
  - apply only_generator; cbn; repeat constructor.
  - apply only_generator; cbn; [intros r x; destruct (u r x); constructor | repeat constructor].
  - apply only_generator; cbn; repeat constructor.
  - apply only_generator; [intros s x | intros s; apply IHn].
    destruct (f x) as [y|e]; [|constructor].
    pose proof (only_send _ _ IHn s y) as Hy. destruct (send (den n) s y) as [[[s' x'] tr] e]; exact Hy.
  - apply only_generator; [intros s x | intros s; apply IHn].
    destruct (f x) as [y|e]; [apply IHn|constructor].
  - apply only_generator; [intros s x | intros s; apply IHn].
    destruct (f x) as [ys oe]. pose proof (send_all_only _ _ IHn ys s) as Hy.
    destruct (send_all (den n) s ys) as [[s' tr] e]; exact Hy.
  - apply only_generator; [intros s x | intros s; apply IHn].
    destruct (f x) as [ys oe]. pose proof (send_upds_only _ _ IHn ys s x) as Hy.
    destruct (send_upds (den n) s x ys) as [[[s' x'] tr] e]; exact Hy.
  - apply only_generator; [intros s x | intros s; apply IHn].
    destruct (p x) as [[|]|e]; [apply IHn|constructor|constructor].
  - assert (Hs : only (den n) (id :: ids n)) by (eapply only_sub; [|exact IHn]; now right).
    apply only_generator; [intros [[a b] s] x | intros [[a b] s]].
    + destruct (p x) as [[|]|e]; [|constructor|constructor].
      pose proof (only_send _ _ Hs s x) as Hy. destruct (send (den n) s x) as [[[s' x'] tr] e]; exact Hy.
    + apply Forall_app; split; [apply Hs | constructor; [now left | constructor]].
  - assert (Hs : only (den n) (id :: ids n)) by (eapply only_sub; [|exact IHn]; now right).
    apply only_generator; [intros s x | intros s; apply Hs].
    destruct (f x) as [e|]; [constructor; [now left|constructor]|].
    pose proof (only_send _ _ Hs s x) as Hy. destruct (send (den n) s x) as [[[s' x'] tr] e].
    constructor; [now left | exact Hy].
  - assert (Ha : only (den n1) (ids n1 ++ ids n2)) by (eapply only_sub; [|exact IHn1]; intros; apply in_app_iff; now left).
    assert (Hn : only (den n2) (ids n1 ++ ids n2)) by (eapply only_sub; [|exact IHn2]; intros; apply in_app_iff; now right).
    apply only_generator; [intros [sd s] x | intros [sd s]; apply Forall_app; split; [apply Hn | apply Ha]].
    pose proof (only_send _ _ Ha sd x) as H1. destruct (send (den n1) sd x) as [[[sd' x'] tr] [e|]]; [exact H1|].
    pose proof (only_send _ _ Hn s x') as H2. destruct (send (den n2) s x') as [[[s' x''] tr'] e'].
    apply Forall_app; split; assumption.
  - assert (Hl : Forall (fun m => only m (flat_map ids l)) (map den l)).
    { apply Forall_map. rewrite Forall_forall in H |- *. intros n Hn.
      eapply only_sub; [|apply H, Hn]. intros i Hi. apply in_flat_map. eauto. }
    destruct (fork_only _ _ Hl) as [H1 H2]. apply only_generator; assumption.
  - apply only_generator; [intros [[k b] s] x | intros [[k b] s]; apply IHn].
    destruct k as [|k]; [|constructor]. destruct (no_blocks b); [constructor|].
    pose proof (only_send _ _ IHn s x) as Hy. destruct (send (den n) s x) as [[[s' x'] tr] [e|]]; exact Hy.
Qed.

(** ---- a part of a pipeline lives a complete life of its own ---- *)
Definition proj (l : list nat) (tr : list ev) : list ev := filter (fun e => mem l (ev_id e)) tr.

Lemma proj_app l a b : proj l (a ++ b) = proj l a ++ proj l b.
Proof. apply filter_app. Qed.

Lemma mem_in l i : mem l i = true <-> In i l.
Proof.
  unfold mem. rewrite existsb_exists. split.
  - intros (j & Hj & He). apply Nat.eqb_eq in He. now subst.
  - intros Hi. exists i. split; [exact Hi | apply Nat.eqb_refl].
Qed.

Lemma proj_all l tr : evs_in l tr -> proj l tr = tr.
Proof.
  induction 1 as [|e tr He Htr IH]; [reflexivity|].
  apply mem_in in He. unfold proj in *. cbn. rewrite He, IH. reflexivity.
Qed.

Lemma proj_none l l' tr : apart l' l -> evs_in l' tr -> proj l tr = [].
Proof.
  intros Ha. induction 1 as [|e tr He Htr IH]; [reflexivity|]. unfold proj in *. cbn.
  destruct (mem l (ev_id e)) eqn:E; [|exact IH].
  apply mem_in in E. exfalso. exact (Ha _ He E).
Qed.

(** [m] sits inside the generator at [get] *)
Record inside (m : machine) (l : list nat) R (body : R -> item -> step R) (fin : R -> list ev)
       (get : R -> St m) : Prop := {
  in_body : forall r x, exists ys,
    let '(r', _, tr, e) := body r x in
    let '(s', tr', _, e') := feed m (get r) ys in
    s' = get r' /\ proj l tr = tr' /\ (e = None -> e' = None);
  in_fin : forall r, proj l (fin r) = snd (close m (get r)) }.

Lemma inside_feed m l R r0 body fin get :
  inside m l R body fin get ->
  forall xs r, exists ys, proj l (ctrace (generator R r0 body fin) (Some r) xs) = ctrace m (get r) ys.
Proof.
  intros H xs; induction xs as [|x xs IH]; intros r.
  - exists []. unfold ctrace.  cbn -[proj]. apply H.
  - destruct (in_body _ _ _ _ _ _ H r x) as [ys Hys].
    unfold ctrace.  cbn -[proj].
    destruct (body r x) as [[[r' x'] tr] e].
    destruct (feed m (get r) ys) as [[[s' tr'] k'] e'] eqn:Ef.
    destruct Hys as (Hs & Ht & He). destruct e as [e|].
    + exists ys. rewrite Ef.  cbn -[proj]. rewrite app_nil_r, proj_app, Ht, (in_fin _ _ _ _ _ _ H). now subst.
    + specialize (He eq_refl). subst e'. destruct (IH r') as [zs Hzs].
      exists (ys ++ zs). rewrite feed_app, Ef. subst s'.
      unfold ctrace in Hzs. cbn -[proj] in Hzs.
      change (generator R r0 body fin) with (generator R r0 body fin) in *.
      destruct (feed (generator R r0 body fin) (Some r') xs) as [[[s2 tr2] k2] e2].
      destruct (feed m (get r') zs) as [[[s3 tr3] k3] e3].
      rewrite <- !app_assoc, proj_app, Ht. f_equal. exact Hzs.
Qed.

(** one send is a feed *)
Lemma feed_one (m : machine) s x :
  feed m s [x] = (let '(s', _, tr, e) := send m s x in (s', tr, 1, e)).
Proof.  cbn -[proj]. destruct (send m s x) as [[[s' x'] tr] [e|]]; [reflexivity | now rewrite app_nil_r]. Qed.

Lemma send_all_feed (m : machine) ys s :
  send_all m s ys = (let '(s', tr, _, e) := feed m s ys in (s', tr, e)).
Proof.
  revert s; induction ys as [|y ys IH]; intros s; cbn; [reflexivity|].
  destruct (send m s y) as [[[s' x'] tr] [e|]]; [reflexivity|].
  rewrite IH. destruct (feed m s' ys) as [[[s2 tr2] k2] e2]. reflexivity.
Qed.

Lemma send_upds_feed (m : machine) us s x : exists ys,
  let '(s', _, tr, e) := send_upds m s x us in
  let '(s2, tr2, _, e2) := feed m s ys in s2 = s' /\ tr2 = tr /\ e2 = e.
Proof.
  revert s x; induction us as [|u us IH]; intros s x;  cbn -[proj].
  - exists [].  cbn -[proj]. auto.
  - destruct (send m s (u x)) as [[[s' x'] tr] e] eqn:Es. destruct e as [e|].
    + exists [u x]. rewrite feed_one, Es. auto.
    + destruct (IH s' x') as [ys Hys]. exists (u x :: ys).  cbn -[proj]. rewrite Es.
      destruct (send_upds m s' x' us) as [[[s2 x2] tr2] e2].
      destruct (feed m s' ys) as [[[s3 tr3] k3] e3]. destruct Hys as (-> & -> & ->). auto.
Qed.

Lemma proj_send m l s x : only m l ->
  proj l (snd (fst (send m s x))) = snd (fst (send m s x)).
Proof. intros H. apply proj_all, H. Qed.

Lemma part_ids (c n : node) : part c n -> forall i, In i (ids c) -> In i (ids n).
Proof.
  induction 1; cbn; intros i Hi; auto.
  - apply in_app_iff; auto.
  - apply in_app_iff; auto.
  - rewrite flat_map_app. apply in_app_iff. right.  cbn -[proj]. apply in_app_iff. now left.
Qed.

(** complete traces of a sub-pipeline *)
Definition lives (c n : node) : Prop :=
  forall xs, exists ys,
    proj (ids c) (ctrace (den n) (start (den n)) xs) = ctrace (den c) (start (den c)) ys.

Lemma lives_inside (c : node) R (r0 : R) body fin get :
  inside (den c) (ids c) R body fin get -> get r0 = start (den c) ->
  forall xs, exists ys,
    proj (ids c) (ctrace (generator R r0 body fin) (Some r0) xs) = ctrace (den c) (start (den c)) ys.
Proof.
  intros H H0 xs. destruct (inside_feed _ _ _ r0 _ _ _ H xs r0) as [ys Hys]. exists ys. now rewrite <- H0.
Qed.

Lemma inside_fork (c : node) l1 l2 :
  apart (flat_map ids (l1 ++ l2)) (ids c) ->
  exists get, get (fork_start (map den (l1 ++ c :: l2))) = start (den c) /\
  inside (den c) (ids c) _ (fork_send (map den (l1 ++ c :: l2))) (fork_close (map den (l1 ++ c :: l2))) get.
Proof.
  induction l1 as [|a l1 IH]; cbn; intros Hap.
  - exists fst. split; [reflexivity|].
    assert (Hl : Forall (fun m => only m (flat_map ids l2)) (map den l2)).
    { apply Forall_map, Forall_forall. intros n Hn. eapply only_sub; [|apply only_node].
      intros i Hi. apply in_flat_map. eauto. }
    destruct (fork_only _ _ Hl) as [H1 H2]. constructor.
    + intros [s ss] x. exists [x]. rewrite feed_one.  cbn -[proj].
      pose proof (only_send _ _ (only_node c) s x) as Ho.
      destruct (send (den c) s x) as [[[s' x'] tr] [e|]].
      * repeat split; [apply proj_all, Ho | discriminate].
      * specialize (H1 ss x'). destruct (fork_send (map den l2) ss x') as [[[ss' x''] tr'] e'].
        repeat split. cbn in Ho, H1. rewrite proj_app, (proj_all _ _ Ho), (proj_none _ _ _ Hap H1). apply app_nil_r.
    + intros [s ss].  cbn -[proj]. rewrite proj_app, (proj_all _ _ (only_close _ _ (only_node c) s)),
        (proj_none _ _ _ Hap (H2 ss)). apply app_nil_r.
  - destruct IH as (get & Hg0 & Hin).
    { intros i Hi. apply Hap. apply in_app_iff. now right. }
    assert (Hapa : apart (ids a) (ids c)).
    { intros i Hi. apply Hap. apply in_app_iff. now left. }
    exists (fun r => get (snd r)). split; [exact Hg0|]. constructor.
    + intros [s ss] x.  cbn -[proj].
      pose proof (only_send _ _ (only_node a) s x) as Ho.
      destruct (send (den a) s x) as [[[s' x'] tr] [e|]].
      * exists [].  cbn -[proj]. repeat split. apply (proj_none _ _ _ Hapa Ho).
      * destruct (in_body _ _ _ _ _ _ Hin ss x') as [ys Hys]. exists ys.
        destruct (fork_send (map den (l1 ++ c :: l2)) ss x') as [[[ss' x''] tr'] e'].
         cbn -[proj]. destruct (feed (den c) (get ss) ys) as [[[s3 tr3] k3] e3].
        destruct Hys as (Hs & Ht & He). repeat split; [exact Hs | | exact He].
        cbn in Ho. rewrite proj_app, (proj_none _ _ _ Hapa Ho). exact Ht.
    + intros [s ss].  cbn -[proj]. rewrite proj_app, (proj_none _ _ _ Hapa (only_close _ _ (only_node a) s)).
      apply Hin.
Qed.

Ltac one_send n s x :=
  exists [x]; rewrite feed_one;
  pose proof (only_send _ _ (only_node n) s x) as Ho;
  destruct (send (den n) s x) as [[[?s' ?x'] ?tr] ?e].

Lemma part_lives (c n : node) : part c n -> lives c n.
Proof.
  induction 1; unfold lives; cbn [den].
  - apply (lives_inside n _ _ _ _ (fun s => s)); [|reflexivity]. constructor.
    + intros s x. destruct (f x) as [y|e].
      * one_send n s y. repeat split; [apply proj_all, Ho | now intros ->].
      * exists [].  cbn -[proj]. auto.
    + intros s. apply proj_all, only_node.
  - apply (lives_inside n _ _ _ _ (fun s => s)); [|reflexivity]. constructor.
    + intros s x. destruct (f x) as [y|e].
      * one_send n s y. repeat split; [apply proj_all, Ho | now intros ->].
      * exists [].  cbn -[proj]. auto.
    + intros s. apply proj_all, only_node.
  - apply (lives_inside n _ _ _ _ (fun s => s)); [|reflexivity]. constructor.
    + intros s x. destruct (f x) as [ys oe]. exists ys. rewrite send_all_feed.
      pose proof (send_all_only _ _ (only_node n) ys s) as Ho. rewrite send_all_feed in Ho.
      destruct (feed (den n) s ys) as [[[s' tr] k] e]. repeat split; [apply proj_all, Ho|].
      now destruct e.
    + intros s. apply proj_all, only_node.
  - apply (lives_inside n _ _ _ _ (fun s => s)); [|reflexivity]. constructor.
    + intros s x. destruct (f x) as [us oe].
      pose proof (send_upds_only _ _ (only_node n) us s x) as Ho.
      destruct (send_upds_feed (den n) us s x) as [ys Hys]. exists ys.
      destruct (send_upds (den n) s x us) as [[[s' x'] tr] e].
      destruct (feed (den n) s ys) as [[[s2 tr2] k] e2]. destruct Hys as (-> & -> & ->).
      repeat split; [apply proj_all, Ho|]. now destruct e.
    + intros s. apply proj_all, only_node.
  - apply (lives_inside n _ _ _ _ (fun s => s)); [|reflexivity]. constructor.
    + intros s x. destruct (p x) as [[|]|e].
      * one_send n s x. repeat split; [apply proj_all, Ho | now intros ->].
      * exists [].  cbn -[proj]. auto.
      * exists [].  cbn -[proj]. auto.
    + intros s. apply proj_all, only_node.
  - assert (Hid : forall r, proj (ids n) [@Fut item id r] = []).
    { intros r. unfold proj. cbn. destruct (mem (ids n) id) eqn:E; [|reflexivity]. now apply mem_in in E. }
    apply (lives_inside n _ _ _ _ (fun r => snd r)); [|reflexivity]. constructor.
    + intros [[a b] s] x.  cbn -[proj]. destruct (p x) as [[|]|e].
      * one_send n s x. repeat split; [apply proj_all, Ho | now intros ->].
      * exists [].  cbn -[proj]. auto.
      * exists [].  cbn -[proj]. auto.
    + intros [[a b] s]. cbn [snd]. rewrite proj_app, Hid, app_nil_r. apply proj_all, only_node.
  - assert (Hid : forall x, proj (ids n) [@Eff item id x] = []).
    { intros x. unfold proj. cbn. destruct (mem (ids n) id) eqn:E; [|reflexivity]. now apply mem_in in E. }
    apply (lives_inside n _ _ _ _ (fun s => s)); [|reflexivity]. constructor.
    + intros s x. destruct (f x) as [e|].
      * exists []. cbn [feed]. split; [reflexivity|]. split; [apply Hid | discriminate].
      * one_send n s x. repeat split; [|now intros ->].
        change (Eff id x :: tr) with ([Eff id x] ++ tr). rewrite proj_app, Hid. apply proj_all, Ho.
    + intros s. apply proj_all, only_node.
  - apply (lives_inside a _ _ _ _ (fun r => fst r)); [|reflexivity].
    assert (Hap : apart (ids n) (ids a)) by (intros i Hi Hj; exact (H i Hj Hi)).
    constructor.
    + intros [sd s] x. cbn [fst]. one_send a sd x. destruct e as [e|].
      * repeat split; [apply proj_all, Ho | discriminate].
      * pose proof (only_send _ _ (only_node n) s x') as Ho2.
        destruct (send (den n) s x') as [[[s2 x2] tr2] e2]. repeat split.
        cbn in Ho2. rewrite proj_app, (proj_none _ _ _ Hap Ho2), app_nil_r. apply proj_all, Ho.
    + intros [sd s]. cbn [fst]. rewrite proj_app, (proj_none _ _ _ Hap (only_close _ _ (only_node n) s)).
      apply proj_all, only_node.
  - apply (lives_inside n _ _ _ _ (fun r => snd r)); [|reflexivity]. constructor.
    + intros [sd s] x. cbn [snd].
      pose proof (only_send _ _ (only_node a) sd x) as Ho2.
      destruct (send (den a) sd x) as [[[sd' x1] tr1] [e1|]].
      * exists []. cbn [feed]. repeat split. apply (proj_none _ _ _ H Ho2).
      * one_send n s x1. repeat split; [|now intros ->].
        cbn in Ho2. rewrite proj_app, (proj_none _ _ _ H Ho2). apply proj_all, Ho.
    + intros [sd s]. cbn [snd]. rewrite proj_app, (proj_none _ _ _ H (only_close _ _ (only_node a) sd)), app_nil_r.
      apply proj_all, only_node.
  - destruct (inside_fork n l1 l2 H) as (get & Hg & Hin). cbn [den].
    apply (lives_inside n _ _ _ _ get Hin Hg).
  - apply (lives_inside n _ _ _ _ (fun r => snd r)); [|reflexivity]. constructor.
    + intros [[k b] s] x. cbn [snd]. destruct k as [|k].
      * destruct (no_blocks b).
        -- exists [].  cbn -[proj]. auto.
        -- one_send n s x. destruct e as [e|].
           ++ repeat split; [apply proj_all, Ho | discriminate].
           ++ repeat split. apply proj_all, Ho.
      * exists [].  cbn -[proj]. auto.
    + intros [[k b] s]. apply proj_all, only_node.
  - intros xs. exists xs. apply proj_all. unfold ctrace.
    assert (Hf : forall xs s, evs_in (ids n) (snd (fst (fst (feed (den n) s xs))))).
    { clear xs. induction xs as [|x xs IH]; intros s; cbn; [constructor|].
      pose proof (only_send _ _ (only_node n) s x) as Ho.
      destruct (send (den n) s x) as [[[s' x'] tr] [e|]]; cbn in *; [exact Ho|].
      specialize (IH s'). destruct (feed (den n) s' xs) as [[[s2 tr2] k2] e2]. cbn in *.
      apply Forall_app; split; assumption. }
    specialize (Hf xs (start (den n))).
    destruct (feed (den n) (start (den n)) xs) as [[[s' tr] k] e].
    apply Forall_app; split; [exact Hf | apply only_node].
  - intros xs. destruct (IHpart2 xs) as [ys Hys]. destruct (IHpart1 ys) as [zs Hzs].
    exists zs. rewrite <- Hzs, <- Hys. unfold proj.
    assert (Hff : forall tr : list ev, filter (fun e => mem (ids a) (ev_id e)) tr =
            filter (fun e => mem (ids a) (ev_id e)) (filter (fun e => mem (ids b) (ev_id e)) tr)).
    { induction tr as [|e tr IH]; cbn; [reflexivity|].
      destruct (mem (ids a) (ev_id e)) eqn:Ea.
      - assert (Eb : mem (ids b) (ev_id e) = true).
        { apply mem_in. apply mem_in in Ea. eapply part_ids; eauto. }
        rewrite Eb.  cbn -[proj]. rewrite Ea, IH. reflexivity.
      - destruct (mem (ids b) (ev_id e)); cbn; [rewrite Ea|]; exact IH. }
    apply Hff.
Qed.

Lemma part_run (c n : node) : part c n -> forall xs, exists ys,
  events_of c (o_trace (run n xs)) = o_trace (run c ys).
Proof.
  intros H xs. destruct (part_lives c n H xs) as [ys Hys]. exists ys.
  rewrite !run_ctrace. exact Hys.
Qed.

End Proofs.
