(** Proofs: counters (C04), early stop (C05), dictionaries (C06) *)
From Coq Require Import List Bool Arith Lia Permutation.
Import ListNotations.
From Verif Require Import DataflowModel DataflowSpec DataflowProofs DataflowList DataflowStop.
Local Open Scope nat_scope.

Section S.
Context {item : Type}.
Notation ev := (ev item). Notation node := (node item). Notation machine := (machine item).
Local Arguments calls : simpl never.
Local Arguments results : simpl never.

(** ---- closing calls no effect ---- *)
Definition silent (tr : list ev) : Prop := forall id, calls id tr = [].
Lemma silent_app a b : silent a -> silent b -> silent (a ++ b).
Proof. intros Ha Hb id. now rewrite calls_app, Ha, Hb. Qed.
Definition silent_close (m : machine) : Prop := forall s, silent (snd (close m s)).

Lemma silent_generator R (r0 : R) body fin : (forall r, silent (fin r)) -> silent_close (generator R r0 body fin).
Proof. intros H [r|]; cbn; [apply H | intros id; reflexivity]. Qed.

Lemma silent_node (n : node) : silent_close (den n).
Proof.
  induction n using node_ind'; cbn [den].
  1-3: apply silent_generator; intros r i; reflexivity.
  1-5: apply silent_generator; intros r; apply IHn.
  - apply silent_generator; intros [[a b] r]. apply silent_app; [apply IHn | intros i; reflexivity].
  - apply silent_generator; intros r; apply IHn.
  - apply silent_generator; intros [a r]. apply silent_app; [apply IHn2 | apply IHn1].
  - apply silent_generator. induction H as [|c l Hc Hl IHl]; cbn.
    + intros _ i; reflexivity.
    + intros [r rs]. apply silent_app; [apply Hc | apply IHl].
  - apply silent_generator; intros [[a b] r]. apply IHn.
Qed.

(** ---- C05: prefix ---- *)
Lemma prefix_refl {A} (a : list A) : prefix a a.
Proof. exists []. now rewrite app_nil_r. Qed.
Lemma prefix_app {A} (a b c : list A) : prefix a b -> prefix a (b ++ c).
Proof. intros [d ->]. exists (d ++ c). now rewrite app_assoc. Qed.
Lemma prefix_app_l {A} (a b c : list A) : prefix b c -> prefix (a ++ b) (a ++ c).
Proof. intros [d ->]. exists d. now rewrite app_assoc. Qed.

Definition cprefix (a b : list ev) : Prop := forall id, prefix (calls id a) (calls id b).
Lemma cprefix_refl a : cprefix a a. Proof. intros id. apply prefix_refl. Qed.
Lemma cprefix_app a b c : cprefix a b -> cprefix a (b ++ c).
Proof. intros H id. rewrite calls_app. apply prefix_app, H. Qed.
Lemma cprefix_app_l a b c : cprefix b c -> cprefix (a ++ b) (a ++ c).
Proof. intros H id. rewrite !calls_app. apply prefix_app_l, H. Qed.
Lemma cprefix_silent a b c : cprefix a b -> silent c -> cprefix (a ++ c) b.
Proof. intros H Hs id. rewrite calls_app, Hs, app_nil_r. apply H. Qed.

Definition stepsim {S S'} (R : S -> S' -> Prop) (a : step S) (b : step S') : Prop :=
  let '(s1, x1, tr, e) := a in let '(s1', x1', tr', e') := b in
  match e with
  | None => e' = None /\ R s1 s1' /\ x1 = x1' /\ tr = tr'
  | Some _ => cprefix tr tr'
  end.

Record sim (m m' : machine) (R : St m -> St m' -> Prop) : Prop := {
  sim_start : R (start m) (start m');
  sim_send : forall s s' x, R s s' -> stepsim R (send m s x) (send m' s' x) }.

Lemma sim_generator R R' (r0 : R) (r0' : R') body body' fin fin' (RR : R -> R' -> Prop) :
  RR r0 r0' -> (forall r, silent (fin r)) ->
  (forall r r' x, RR r r' -> stepsim RR (body r x) (body' r' x)) ->
  sim (generator R r0 body fin) (generator R' r0' body' fin')
      (fun s s' => match s, s' with Some r, Some r' => RR r r' | _, _ => False end).
Proof.
  intros H0 Hf Hb. constructor; [exact H0|].
  intros [r|] [r'|] x Hr; try contradiction. specialize (Hb r r' x Hr).
  unfold stepsim in *. cbn. destruct (body r x) as [[[r1 x1] tr] e].
  destruct (body' r' x) as [[[r1' x1'] tr'] e']. destruct e as [e|].
  - destruct e' as [e'|].
    + apply cprefix_silent; [apply cprefix_app, Hb | apply Hf].
    + apply cprefix_silent; [exact Hb | apply Hf].
  - destruct Hb as (-> & H1 & -> & ->). auto.
Qed.

Definition Sim (m m' : machine) := exists R, sim m m' R.

Lemma send_all_sim (m m' : machine) R : sim m m' R -> forall ys s s', R s s' ->
  let '(s1, tr, e) := send_all m s ys in let '(s1', tr', e') := send_all m' s' ys in
  match e with None => e' = None /\ R s1 s1' /\ tr = tr' | Some _ => cprefix tr tr' end.
Proof.
  intros H ys; induction ys as [|y ys IH]; intros s s' Hr; cbn; [auto|].
  pose proof (sim_send _ _ _ H s s' y Hr) as Hy. unfold stepsim in Hy.
  destruct (send m s y) as [[[s1 x1] tr] [e|]]; destruct (send m' s' y) as [[[s1' x1'] tr'] e'].
  - destruct e' as [e'|]; [exact Hy|]. destruct (send_all m' s1' ys) as [[? ?] ?]. apply cprefix_app, Hy.
  - destruct Hy as (-> & H1 & -> & ->). specialize (IH _ _ H1).
    destruct (send_all m s1 ys) as [[s2 tr2] e2]. destruct (send_all m' s1' ys) as [[s2' tr2'] e2'].
    destruct e2; [apply cprefix_app_l, IH|]. destruct IH as (-> & H2 & ->). auto.
Qed.

Lemma send_upds_sim (m m' : machine) R : sim m m' R -> forall us s s' x, R s s' ->
  stepsim R (send_upds m s x us) (send_upds m' s' x us).
Proof.
  intros H us; induction us as [|u us IH]; intros s s' x Hr; cbn; [auto|].
  pose proof (sim_send _ _ _ H s s' (u x) Hr) as Hy. unfold stepsim in *.
  destruct (send m s (u x)) as [[[s1 x1] tr] [e|]]; destruct (send m' s' (u x)) as [[[s1' x1'] tr'] e'].
  - destruct e' as [e'|]; [exact Hy|]. destruct (send_upds m' s1' x1' us) as [[[? ?] ?] ?]. apply cprefix_app, Hy.
  - destruct Hy as (-> & H1 & -> & ->). specialize (IH _ _ x1' H1).
    destruct (send_upds m s1 x1' us) as [[[s2 x2] tr2] e2]. destruct (send_upds m' s1' x1' us) as [[[s2' x2'] tr2'] e2'].
    destruct e2; [apply cprefix_app_l, IH|]. destruct IH as (-> & H2 & -> & ->). auto.
Qed.

Ltac scase H s s' x Hr :=
  let Hy := fresh "Hy" in
  pose proof (sim_send _ _ _ H s s' x Hr) as Hy; unfold stepsim in *;
  match type of Hy with
  | context [send ?m s x] => destruct (send m s x) as [[[?s1 ?x1] ?tr] [?e|]]
  end;
  match type of Hy with
  | context [send ?m s' x] => destruct (send m s' x) as [[[?s1' ?x1'] ?tr'] ?e']
  end.

Lemma sim_node (n : node) : Sim (den n) (den (unstop n)).
Proof.
  induction n using node_ind'; cbn [den unstop].
  - eexists; apply (sim_generator _ _ _ _ _ _ _ _ eq); [reflexivity | intros r i; reflexivity|].
    intros r r' x ->. unfold stepsim, unstop_effect. destruct (f x) as [[|c]|]; auto using cprefix_refl.
  - eexists; apply (sim_generator _ _ _ _ _ _ _ _ eq); [reflexivity | intros r i; reflexivity|].
    intros r r' x ->. unfold stepsim. destruct (u r' x); auto using cprefix_refl.
  - eexists; apply (sim_generator _ _ _ _ _ _ _ _ eq); [reflexivity | intros r i; reflexivity|].
    intros r r' x ->. cbn. auto.
  - destruct IHn as [R H]. eexists; apply (sim_generator _ _ _ _ _ _ _ _ R); [apply H | intros r; apply silent_node|].
    intros s s' x Hr. destruct (f x) as [y|e].
    + scase H s s' y Hr; [exact Hy|]. destruct Hy as (-> & H1 & -> & ->). auto.
    + apply cprefix_refl.
  - destruct IHn as [R H]. eexists; apply (sim_generator _ _ _ _ _ _ _ _ R); [apply H | intros r; apply silent_node|].
    intros s s' x Hr. destruct (f x) as [y|e]; [apply (sim_send _ _ _ H), Hr | apply cprefix_refl].
  - destruct IHn as [R H]. eexists; apply (sim_generator _ _ _ _ _ _ _ _ R); [apply H | intros r; apply silent_node|].
    intros s s' x Hr. destruct (f x) as [ys oe].
    pose proof (send_all_sim _ _ _ H ys _ _ Hr) as Hy. unfold stepsim.
    destruct (send_all (den n) s ys) as [[s1 tr] e]. destruct (send_all (den (unstop n)) s' ys) as [[s1' tr'] e'].
    destruct e as [e|]; [exact Hy|]. destruct Hy as (-> & H1 & ->). destruct oe; [apply cprefix_refl | auto].
  - destruct IHn as [R H]. eexists; apply (sim_generator _ _ _ _ _ _ _ _ R); [apply H | intros r; apply silent_node|].
    intros s s' x Hr. destruct (f x) as [ys oe].
    pose proof (send_upds_sim _ _ _ H ys _ _ x Hr) as Hy. unfold stepsim in *.
    destruct (send_upds (den n) s x ys) as [[[s1 x1] tr] e]. destruct (send_upds (den (unstop n)) s' x ys) as [[[s1' x1'] tr'] e'].
    destruct e as [e|]; [exact Hy|]. destruct Hy as (-> & H1 & -> & ->). destruct oe; [apply cprefix_refl | auto].
  - destruct IHn as [R H]. eexists; apply (sim_generator _ _ _ _ _ _ _ _ R); [apply H | intros r; apply silent_node|].
    intros s s' x Hr. destruct (p x) as [[|]|e]; [apply (sim_send _ _ _ H), Hr | cbn; auto | apply cprefix_refl].
  - destruct IHn as [R H].
    eexists; apply (sim_generator _ _ _ _ _ _ _ _ (fun r r' => fst r = fst r' /\ R (snd r) (snd r')));
      [split; [reflexivity | apply H] | intros [[a b] r]; apply silent_app; [apply silent_node | intros i; reflexivity]|].
    intros [[a b] s] [[a' b'] s'] x [Hab Hr]. cbn in Hab, Hr. inversion Hab; subst.
    destruct (p x) as [[|]|e]; [|cbn; auto | apply cprefix_refl].
    scase H s s' x Hr; [exact Hy|]. destruct Hy as (-> & H1 & -> & ->). cbn. auto.
  - destruct IHn as [R H]. eexists; apply (sim_generator _ _ _ _ _ _ _ _ R); [apply H | intros r; apply silent_node|].
    intros s s' x Hr. unfold unstop_effect. destruct (f x) as [[|c]|].
    + unfold stepsim. destruct (send (den (unstop n)) s' x) as [[[s1' x1'] tr'] e'].
      apply (cprefix_app [Eff id x] [Eff id x] tr'), cprefix_refl.
    + apply cprefix_refl.
    + scase H s s' x Hr; [apply (cprefix_app_l [Eff id x]), Hy|]. destruct Hy as (-> & H1 & -> & ->). cbn. auto.
  - destruct IHn1 as [Ra Ha]. destruct IHn2 as [R H].
    eexists; apply (sim_generator _ _ _ _ _ _ _ _ (fun r r' => Ra (fst r) (fst r') /\ R (snd r) (snd r')));
      [split; [apply Ha | apply H] | intros [a r]; apply silent_app; apply silent_node|].
    intros [sd s] [sd' s'] x [Hsd Hs]. cbn in Hsd, Hs.
    scase Ha sd sd' x Hsd.
    + destruct e' as [e'|]; [exact Hy|]. destruct (send (den (unstop n2)) s' x1') as [[[? ?] ?] ?].
      apply cprefix_app, Hy.
    + destruct Hy as (-> & H1 & -> & ->). scase H s s' x1' Hs.
      * apply cprefix_app_l, Hy.
      * destruct Hy as (-> & H2 & -> & ->). cbn. auto.
  - assert (Hl : exists RR : fork_st (map den l) -> fork_st (map den (map unstop l)) -> Prop,
      RR (fork_start _) (fork_start _) /\
      forall r r' x, RR r r' -> stepsim RR (fork_send _ r x) (fork_send _ r' x)).
    { induction H as [|c l [R Hc] Hl [RR [IH0 IH1]]]; cbn.
      - exists (fun _ _ => True). split; [exact I|]. intros r r' x _. cbn. auto.
      - exists (fun r r' => R (fst r) (fst r') /\ RR (snd r) (snd r')). split.
        + split; [apply Hc | exact IH0].
        + intros [s ss] [s' ss'] x [Hs Hss]. cbn in Hs, Hss.
          scase Hc s s' x Hs.
          * destruct e' as [e'|]; [exact Hy|].
            destruct (fork_send (map den (map unstop l)) ss' x1') as [[[? ?] ?] ?]. apply cprefix_app, Hy.
          * destruct Hy as (-> & H1 & -> & ->). specialize (IH1 ss ss' x1' Hss). unfold stepsim in IH1.
            destruct (fork_send (map den l) ss x1') as [[[ss1 x2] tr2] e2].
            destruct (fork_send (map den (map unstop l)) ss' x1') as [[[ss1' x2'] tr2'] e2'].
            destruct e2; [apply cprefix_app_l, IH1|]. destruct IH1 as (-> & H2 & -> & ->). auto. }
    destruct Hl as (RR & H0 & H1).
    eexists; apply (sim_generator _ _ _ _ _ _ _ _ RR); [exact H0| |exact H1].
    clear. induction l as [|c l IH]; cbn; [intros _ i; reflexivity|].
    intros [r rs]. apply silent_app; [apply silent_node | apply IH].
  - destruct IHn as [R H].
    eexists; apply (sim_generator _ _ _ _ _ _ _ _ (fun r r' => fst r = fst r' /\ R (snd r) (snd r')));
      [split; [reflexivity | apply H] | intros [[a b] r]; apply silent_node|].
    intros [[k b] s] [[k' b'] s'] x [Hab Hr]. cbn in Hab, Hr. inversion Hab; subst. destruct k' as [|k].
    + destruct (no_blocks b'); [cbn; auto|].
      scase H s s' x Hr.
      * destruct e' as [e'|]; exact Hy.
      * destruct Hy as (-> & H1 & -> & ->). unfold slice_end. cbn [sl_close sl_step1 andb].
        destruct (sl_close sp && _ && _); [apply cprefix_refl | cbn; auto].
    + unfold stepsim, slice_end. cbn [sl_close sl_step1 andb].
      destruct (sl_close sp && _ && _); [apply cprefix_refl | cbn; auto].
Qed.

Lemma sim_ctrace (m m' : machine) R : sim m m' R -> silent_close m -> forall xs s s', R s s' ->
  cprefix (ctrace m s xs) (ctrace m' s' xs).
Proof.
  intros H Hq xs; induction xs as [|x xs IH]; intros s s' Hr.
  - rewrite !ctrace_nil. intros id. rewrite Hq. exists (calls id (snd (close m' s'))). reflexivity.
  - pose proof (sim_send _ _ _ H s s' x Hr) as Hy. unfold stepsim in Hy.
    destruct (send m s x) as [[[s1 x1] tr] [e|]] eqn:Es; destruct (send m' s' x) as [[[s1' x1'] tr'] e'] eqn:Es'.
    + rewrite (ctrace_exc _ _ _ _ _ _ _ _ Es). apply cprefix_silent; [|apply Hq].
      destruct e' as [e'|].
      * rewrite (ctrace_exc _ _ _ _ _ _ _ _ Es'). apply cprefix_app, Hy.
      * rewrite (ctrace_ok _ _ _ _ _ _ _ Es'). apply cprefix_app, Hy.
    + destruct Hy as (-> & H1 & -> & ->).
      rewrite (ctrace_ok _ _ _ _ _ _ _ Es), (ctrace_ok _ _ _ _ _ _ _ Es'). apply cprefix_app_l, IH, H1.
Qed.

Lemma stop_prefix (n : node) xs id :
  prefix (calls id (o_trace (run n xs))) (calls id (o_trace (run (unstop n) xs))).
Proof.
  destruct (sim_node n) as [R H]. rewrite !run_ctrace.
  apply (sim_ctrace _ _ _ H (silent_node n)). apply H.
Qed.

(** ---- C05: the sink before sees the stopping item ---- *)
Definition quiet : item -> option exc := fun _ => None.

Lemma calls_eff id x tr : calls id (@Eff item id x :: tr) = x :: calls id tr.
Proof. rewrite calls_cons. unfold calls at 1. cbn. now rewrite Nat.eqb_refl. Qed.
Lemma calls_eff_other id i x tr : i <> id -> calls id (@Eff item i x :: tr) = calls id tr.
Proof. intros H. rewrite calls_cons. unfold calls at 1. cbn. apply Nat.eqb_neq in H. now rewrite H. Qed.


Lemma own_send (m : machine) l a s x s1 x1 tr e : only m l -> ~ In a l -> send m s x = (s1, x1, tr, e) ->
  calls a tr = [] /\ results a tr = [].
Proof.
  intros Hm Ha Hs. pose proof (only_send _ _ Hm s x) as Ho. rewrite Hs in Ho.
  split; [eapply calls_none | eapply results_none]; eassumption.
Qed.
Lemma own_close (m : machine) l a s : only m l -> ~ In a l ->
  calls a (snd (close m s)) = [] /\ results a (snd (close m s)) = [].
Proof.
  intros Hm Ha. pose proof (only_close _ _ Hm s) as Ho.
  split; [eapply calls_none | eapply results_none]; eassumption.
Qed.

Lemma before_branch a (m : machine) l xs : only m l -> ~ In a l -> forall s,
  let M := branch_m (sink_m a quiet) m in
  calls a (ctrace M (Some (Some tt, s)) xs) = firstn (nread M (Some (Some tt, s)) xs) xs /\
  nread M (Some (Some tt, s)) xs = nread m s xs.
Proof.
  intros Hm Ha. cbn zeta. induction xs as [|x xs IH]; intros s.
  - split; [|reflexivity]. rewrite ctrace_nil. cbn. rewrite app_nil_r. eapply own_close; eassumption.
  - destruct (send m s x) as [[[s1 x1] tr] [e|]] eqn:Es.
    + erewrite (nread_exc m) by exact Es.
      erewrite nread_exc by (cbn; rewrite Es; reflexivity).
      erewrite ctrace_exc by (cbn; rewrite Es; reflexivity). split; [|reflexivity].
      cbn [firstn close branch_m generator snd app]. rewrite !app_nil_r.
      rewrite calls_eff, calls_app.
      rewrite (proj1 (own_send _ _ _ _ _ _ _ _ _ Hm Ha Es)), (proj1 (own_close _ _ _ _ Hm Ha)). reflexivity.
    + erewrite (nread_ok m) by exact Es.
      erewrite nread_ok by (cbn; rewrite Es; reflexivity).
      erewrite ctrace_ok by (cbn; rewrite Es; reflexivity).
      destruct (IH s1) as [H1 H2]. split; [|f_equal; exact H2]. cbn [firstn app].
      rewrite calls_eff, calls_app. rewrite (proj1 (own_send _ _ _ _ _ _ _ _ _ Hm Ha Es)), H1. reflexivity.
Qed.

Lemma before_run a (n : node) (xs : list item) : ~ In a (ids n) ->
  let o := run (NBranch (NSink a quiet) n) xs in
  calls a (o_trace o) = firstn (o_read o) xs /\ o_read o = o_read (run n xs).
Proof.
  intros Ha. cbn zeta. rewrite run_ctrace, !run_nread.
  apply (before_branch a (den n) (ids n) xs (only_node n) Ha).
Qed.

Lemma before_fork a (ms : list machine) l xs : Forall (fun m => only m l) ms -> ~ In a l -> forall s,
  let M := fork_m (sink_m a quiet :: ms) in
  calls a (ctrace M (Some (Some tt, s)) xs) = firstn (nread M (Some (Some tt, s)) xs) xs /\
  nread M (Some (Some tt, s)) xs = nread (fork_m ms) (Some s) xs.
Proof.
  intros Hms Ha. destruct (fork_only _ _ Hms) as [Ho Hk]. cbn zeta.
  induction xs as [|x xs IH]; intros s.
  - split; [|reflexivity]. rewrite ctrace_nil. cbn. eapply calls_none; [apply Hk | exact Ha].
  - specialize (Ho s x).
    destruct (fork_send ms s x) as [[[s1 x1] tr] [e|]] eqn:Es; cbn in Ho.
    + erewrite (nread_exc (fork_m ms)) by (cbn; rewrite Es; reflexivity).
      erewrite nread_exc by (cbn; rewrite Es; reflexivity).
      erewrite ctrace_exc by (cbn; rewrite Es; reflexivity). split; [|reflexivity].
      cbn [firstn close fork_m generator snd app]. rewrite !app_nil_r.
      rewrite calls_eff, calls_app.
      rewrite (calls_none _ _ _ Ho Ha), (calls_none _ _ _ (Hk s1) Ha). reflexivity.
    + erewrite (nread_ok (fork_m ms)) by (cbn; rewrite Es; reflexivity).
      erewrite nread_ok by (cbn; rewrite Es; reflexivity).
      erewrite ctrace_ok by (cbn; rewrite Es; reflexivity).
      destruct (IH s1) as [H1 H2]. split; [|f_equal; exact H2]. cbn [firstn app].
      rewrite calls_eff, calls_app, (calls_none _ _ _ Ho Ha). cbn [app]. f_equal. exact H1.
Qed.

Lemma before_fork_run a (l : list node) xs : ~ In a (flat_map ids l) ->
  let o := run (NFork (NSink a quiet :: l)) xs in
  calls a (o_trace o) = firstn (o_read o) xs /\ o_read o = o_read (run (NFork l) xs).
Proof.
  intros Ha. cbn zeta. rewrite run_ctrace, !run_nread.
  apply (before_fork a (map den l) (flat_map ids l) xs); [|exact Ha].
  apply Forall_map, Forall_forall. intros c Hc. eapply only_sub; [|apply only_node].
  intros i Hi. apply in_flat_map. eauto.
Qed.

(** stop_when: what comes after it *)
Lemma proj_skip l (e : ev) tr : ~ In (ev_id e) l -> proj l (e :: tr) = proj l tr.
Proof.
  intros Hi. unfold proj. cbn. destruct (mem l (ev_id e)) eqn:E; [|reflexivity]. now apply mem_in in E.
Qed.
Lemma proj_own_send (m : machine) l s x s1 x1 tr e : only m l -> send m s x = (s1, x1, tr, e) -> proj l tr = tr.
Proof. intros Hm Hs. pose proof (only_send _ _ Hm s x) as Ho. rewrite Hs in Ho. now apply proj_all. Qed.
Lemma proj_own_close (m : machine) l s : only m l -> proj l (snd (close m s)) = snd (close m s).
Proof. intros Hm. apply proj_all, Hm. Qed.

Lemma after_stop_when i (p : item -> bool) (m : machine) l xs : only m l -> ~ In i l -> forall s,
  proj l (ctrace (branch_m (sink_m i (fun x => if p x then Some StopPipeline else None)) m) (Some (Some tt, s)) xs) =
  ctrace m s (take_while (fun x => negb (p x)) xs).
Proof.
  intros Hm Hi. induction xs as [|x xs IH]; intros s; cbn [take_while].
  - rewrite !ctrace_nil. cbn -[proj]. rewrite app_nil_r. now apply proj_own_close.
  - destruct (p x) eqn:Ep; cbn [negb].
    + erewrite ctrace_exc by (cbn; rewrite Ep; reflexivity). cbn [close branch_m generator snd app].
      rewrite !app_nil_r, proj_skip by exact Hi. rewrite ctrace_nil. now apply proj_own_close.
    + destruct (send m s x) as [[[s1 x1] tr] [e|]] eqn:Es.
      * erewrite (ctrace_exc m) by exact Es.
        erewrite ctrace_exc by (cbn; rewrite Ep, Es; reflexivity). cbn [close branch_m generator snd app].
        rewrite !app_nil_r, proj_skip by exact Hi.
        rewrite proj_app, (proj_own_send _ _ _ _ _ _ _ _ Hm Es), proj_own_close by exact Hm. reflexivity.
      * erewrite (ctrace_ok m) by exact Es.
        erewrite ctrace_ok by (cbn; rewrite Ep, Es; reflexivity). cbn [app].
        rewrite proj_skip by exact Hi. rewrite proj_app, IH, (proj_own_send _ _ _ _ _ _ _ _ Hm Es). reflexivity.
Qed.

Lemma after_stop_when_run i (p : item -> bool) (n : node) xs : ~ In i (ids n) ->
  events_of n (o_trace (run (NBranch (stop_when i p) n) xs)) =
  o_trace (run n (take_while (fun x => negb (p x)) xs)).
Proof. intros Hi. rewrite !run_ctrace. apply (after_stop_when i p (den n) (ids n) xs (only_node n) Hi). Qed.

(** ---- C04: counters ---- *)
Lemma results_fut id r tr : results id (@Fut item id r :: tr) = r :: results id tr.
Proof. rewrite results_cons. unfold results at 1. cbn. now rewrite Nat.eqb_refl. Qed.
Lemma results_fut_other id i r tr : i <> id -> results id (@Fut item i r :: tr) = results id tr.
Proof. intros H. rewrite results_cons. unfold results at 1. cbn. apply Nat.eqb_neq in H. now rewrite H. Qed.
Lemma results_eff id i x tr : results id (@Eff item i x :: tr) = results id tr.
Proof. reflexivity. Qed.
Lemma calls_fut id i r tr : calls id (@Fut item i r :: tr) = calls id tr.
Proof. reflexivity. Qed.

(** sinks, counters and filters in front of a pipeline *)
Lemma count_front id (m : machine) l xs : only m l -> ~ In id l -> forall k s,
  let M := branch_m (count_m id) m in
  let tr := ctrace M (Some (Some k, s)) xs in
  results id tr = [RCount (k + nread m s xs)] /\ proj l tr = ctrace m s xs /\
  nread M (Some (Some k, s)) xs = nread m s xs.
Proof.
  intros Hm Hi. cbn zeta. induction xs as [|x xs IH]; intros k s.
  - rewrite !ctrace_nil. cbn -[proj]. rewrite results_app, (proj2 (own_close _ _ _ _ Hm Hi)). cbn [app].
    rewrite results_fut, proj_app, proj_own_close by exact Hm. rewrite proj_skip by exact Hi.
    rewrite Nat.add_0_r. cbn. rewrite app_nil_r. auto.
  - destruct (send m s x) as [[[s1 x1] tr] [e|]] eqn:Es.
    + erewrite !(nread_exc m), !(ctrace_exc m) by exact Es.
      erewrite !ctrace_exc, nread_exc by (cbn; rewrite Es; reflexivity).
      cbn [close branch_m generator snd app count_m]. rewrite !app_nil_r.
      rewrite !results_app, !proj_app.
      rewrite (proj2 (own_send _ _ _ _ _ _ _ _ _ Hm Hi Es)), (proj2 (own_close _ _ _ _ Hm Hi)). cbn [app].
      rewrite results_fut, proj_skip by exact Hi.
      rewrite (proj_own_send _ _ _ _ _ _ _ _ Hm Es), proj_own_close by exact Hm.
      rewrite Nat.add_1_r. cbn. rewrite app_nil_r. auto.
    + erewrite !(nread_ok m), !(ctrace_ok m) by exact Es.
      erewrite !ctrace_ok, nread_ok by (cbn; rewrite Es; reflexivity). cbn [app].
      destruct (IH (S k) s1) as (H1 & H2 & H3).
      rewrite results_app, proj_app, H1, H2, H3.
      rewrite (proj2 (own_send _ _ _ _ _ _ _ _ _ Hm Hi Es)), (proj_own_send _ _ _ _ _ _ _ _ Hm Es).
      rewrite Nat.add_succ_r. auto.
Qed.

Lemma sink_front a (m : machine) l xs : only m l -> ~ In a l -> forall s,
  let M := branch_m (sink_m a quiet) m in
  let tr := ctrace M (Some (Some tt, s)) xs in
  length (calls a tr) = nread m s xs /\ proj l tr = ctrace m s xs /\
  nread M (Some (Some tt, s)) xs = nread m s xs.
Proof.
  intros Hm Hi. cbn zeta. induction xs as [|x xs IH]; intros s.
  - rewrite !ctrace_nil. cbn -[proj]. rewrite app_nil_r, (proj1 (own_close _ _ _ _ Hm Hi)).
    rewrite proj_own_close by exact Hm. auto.
  - destruct (send m s x) as [[[s1 x1] tr] [e|]] eqn:Es.
    + erewrite !(nread_exc m), !(ctrace_exc m) by exact Es.
      erewrite !ctrace_exc, nread_exc by (cbn; rewrite Es; reflexivity).
      cbn [close branch_m generator snd app]. rewrite !app_nil_r.
      rewrite calls_eff, proj_skip by exact Hi. rewrite !calls_app, !proj_app.
      rewrite (proj1 (own_send _ _ _ _ _ _ _ _ _ Hm Hi Es)), (proj1 (own_close _ _ _ _ Hm Hi)). cbn [app].
      rewrite (proj_own_send _ _ _ _ _ _ _ _ Hm Es), proj_own_close by exact Hm. auto.
    + erewrite !(nread_ok m), !(ctrace_ok m) by exact Es.
      erewrite !ctrace_ok, nread_ok by (cbn; rewrite Es; reflexivity). cbn [app].
      destruct (IH s1) as (H1 & H2 & H3).
      rewrite calls_eff, proj_skip by exact Hi.
      rewrite calls_app, proj_app, H2, H3.
      rewrite (proj1 (own_send _ _ _ _ _ _ _ _ _ Hm Hi Es)), (proj_own_send _ _ _ _ _ _ _ _ Hm Es).
      cbn [app length]. rewrite H1. auto.
Qed.

Lemma cfilter_front id p (m : machine) l xs : only m l -> ~ In id l -> forall np nf s, exists P F,
  let M := cfilter_m id (fun x => Ret (p x)) m in
  let st := Some (np, nf, s) in
  let tr := ctrace M st xs in
  results id tr = [RPassed (np + P) (nf + F)] /\ proj l tr = ctrace m s (filter p xs) /\
  nread M st xs = P + F /\ nread m s (filter p xs) = P.
Proof.
  intros Hm Hi. cbn zeta. induction xs as [|x xs IH]; intros np nf s.
  - exists 0, 0. cbn [filter]. rewrite !ctrace_nil. cbn -[proj].
    rewrite results_app, (proj2 (own_close _ _ _ _ Hm Hi)). cbn [app].
    rewrite results_fut, proj_app, proj_own_close by exact Hm. rewrite proj_skip by exact Hi.
    rewrite !Nat.add_0_r. cbn. rewrite app_nil_r. auto.
  - cbn [filter]. destruct (p x) eqn:Ep.
    + destruct (send m s x) as [[[s1 x1] tr] [e|]] eqn:Es.
      * exists 1, 0. erewrite !(nread_exc m), !(ctrace_exc m) by exact Es.
        erewrite !ctrace_exc, nread_exc by (cbn; rewrite Ep, Es; reflexivity).
        cbn [close cfilter_m generator snd app]. rewrite !app_nil_r.
        rewrite !results_app, !proj_app.
        rewrite (proj2 (own_send _ _ _ _ _ _ _ _ _ Hm Hi Es)), (proj2 (own_close _ _ _ _ Hm Hi)). cbn [app].
        rewrite results_fut, proj_skip by exact Hi.
        rewrite (proj_own_send _ _ _ _ _ _ _ _ Hm Es), proj_own_close by exact Hm.
        rewrite Nat.add_1_r, Nat.add_0_r. cbn. rewrite app_nil_r. auto.
      * destruct (IH (S np) nf s1) as (P & F & H1 & H2 & H3 & H4). exists (S P), F.
        erewrite !(nread_ok m), !(ctrace_ok m) by exact Es.
        erewrite !ctrace_ok, nread_ok by (cbn; rewrite Ep, Es; reflexivity).
        rewrite results_app, proj_app, H1, H2, H3, H4.
        rewrite (proj2 (own_send _ _ _ _ _ _ _ _ _ Hm Hi Es)), (proj_own_send _ _ _ _ _ _ _ _ Hm Es).
        rewrite Nat.add_succ_r. auto.
    + destruct (IH np (S nf) s) as (P & F & H1 & H2 & H3 & H4). exists P, (S F).
      erewrite !ctrace_ok, nread_ok by (cbn; rewrite Ep; reflexivity). cbn [app].
      rewrite H1, H2, H3, H4. rewrite !Nat.add_succ_r. auto.
Qed.

Lemma upd_front f (m : machine) xs s :
  ctrace (upd_m (fun x => Ret (f x)) m) (Some s) xs = ctrace m s (map f xs) /\
  nread (upd_m (fun x => Ret (f x)) m) (Some s) xs = nread m s (map f xs).
Proof.
  revert s; induction xs as [|x xs IH]; intros s; [now split|]. cbn [map].
  destruct (send m s (f x)) as [[[s1 x1] tr] [e|]] eqn:Es.
  - erewrite !(nread_exc m), !(ctrace_exc m) by exact Es.
    erewrite !ctrace_exc, nread_exc by (cbn; rewrite Es; reflexivity). cbn. rewrite app_nil_r. auto.
  - erewrite !(nread_ok m), !(ctrace_ok m) by exact Es.
    erewrite !ctrace_ok, nread_ok by (cbn; rewrite Es; reflexivity).
    destruct (IH s1) as [H1 H2]. rewrite H1, H2. auto.
Qed.

Lemma chain_front fs (n : node) xs : exists ys,
  ctrace (den (chain fs n)) (start (den (chain fs n))) xs = ctrace (den n) (start (den n)) ys /\
  nread (den (chain fs n)) (start (den (chain fs n))) xs = nread (den n) (start (den n)) ys.
Proof.
  revert xs; induction fs as [|f fs IH]; intros xs; cbn [chain fold_right].
  - exists xs. auto.
  - destruct (upd_front f (den (chain fs n)) xs (start (den (chain fs n)))) as [H1 H2].
    destruct (IH (map f xs)) as (ys & H3 & H4). exists ys. rewrite <- H3, <- H4. split; [exact H1 | exact H2].
Qed.
Lemma chain_ids fs (n : node) : ids (chain fs n) = ids n.
Proof. induction fs; cbn; auto. Qed.

Lemma calls_proj i l (tr : list ev) : In i l -> calls i (proj l tr) = calls i tr.
Proof.
  intros Hi. unfold proj. induction tr as [|e tr IH]; [reflexivity|]. cbn [filter].
  destruct (mem l (ev_id e)) eqn:E.
  - rewrite (calls_cons i e), (calls_cons i e tr). now rewrite IH.
  - rewrite IH, (calls_cons i e tr). destruct e as [j x|j r]; [|reflexivity].
    rewrite calls_eff_other; [reflexivity|]. intros ->. apply mem_in in Hi. cbn in E. congruence.
Qed.
Lemma results_proj i l (tr : list ev) : In i l -> results i (proj l tr) = results i tr.
Proof.
  intros Hi. unfold proj. induction tr as [|e tr IH]; [reflexivity|]. cbn [filter].
  destruct (mem l (ev_id e)) eqn:E.
  - rewrite (results_cons i e), (results_cons i e tr). now rewrite IH.
  - rewrite IH, (results_cons i e tr). destruct e as [j x|j r]; [reflexivity|].
    rewrite results_fut_other; [reflexivity|]. intros ->. apply mem_in in Hi. cbn in E. congruence.
Qed.

Lemma count_filter_anywhere a b id p (n N : node) xs :
  NoDup (a :: b :: id :: ids n) ->
  part (NBranch (NSink a quiet) (NCFilter id (fun x => Ret (p x)) (NBranch (NSink b quiet) n))) N ->
  exists P F, results id (o_trace (run N xs)) = [RPassed P F] /\
    length (calls a (o_trace (run N xs))) = P + F /\
    length (calls b (o_trace (run N xs))) = P.
Proof.
  intros Hnd Hp. set (c := NBranch _ _) in *.
  assert (Ha : ~ In a (id :: b :: ids n)) by (inversion Hnd; subst; cbn in *; tauto).
  assert (Hb : ~ In b (ids n)) by (inversion Hnd; subst; inversion H2; subst; cbn in *; tauto).
  assert (Hid : ~ In id (b :: ids n)).
  { inversion Hnd; subst. inversion H2; subst. inversion H4; subst. cbn in *. intuition congruence. }
  destruct (part_run c N Hp xs) as [ys Hys].
  pose proof (only_node (NCFilter id (fun x => Ret (p x)) (NBranch (NSink b quiet) n))) as O1.
  pose proof (only_node (NBranch (NSink b quiet) n)) as O2.
  destruct (sink_front a _ _ ys O1 Ha (start _)) as (A1 & A2 & A3).
  destruct (cfilter_front id p _ _ ys O2 Hid 0 0 (start _)) as (P & F & B1 & B2 & B3 & B4).
  destruct (sink_front b _ _ (filter p ys) (only_node n) Hb (start _)) as (C1 & C2 & C3).
  exists P, F.
  rewrite <- (results_proj id (ids c)), <- (calls_proj a (ids c)), <- (calls_proj b (ids c)) by (cbn; auto).
  change (proj (ids c) (o_trace (run N xs))) with (events_of c (o_trace (run N xs))).
  rewrite Hys, run_ctrace. split; [|split].
  - rewrite <- (results_proj id (id :: b :: ids n)) by now left. subst c. cbn [ids app] in A2. 
    change (den (NBranch ?x ?y)) with (branch_m (den x) (den y)).
    etransitivity; [|exact B1]. f_equal. exact A2.
  - etransitivity; [exact A1|exact B3].
  - rewrite <- (calls_proj b (id :: b :: ids n)) by (right; now left).
    assert (E : proj (id :: b :: ids n) (ctrace (den c) (start (den c)) ys) =
                ctrace (den (NCFilter id (fun x => Ret (p x)) (NBranch (NSink b quiet) n))) (start (den _)) ys) by exact A2.
    rewrite E, <- (calls_proj b (b :: ids n)) by now left.
    assert (E' : proj (b :: ids n) (ctrace (den (NCFilter id (fun x => Ret (p x)) (NBranch (NSink b quiet) n))) (start (den _)) ys) =
                 ctrace (den (NBranch (NSink b quiet) n)) (start (den _)) (filter p ys)) by exact B2.
    rewrite E'. etransitivity; [exact C1|]. rewrite <- B4. symmetry. exact C3.
Qed.

Lemma spy_count_anywhere a id (n N : node) xs :
  NoDup (a :: id :: ids n) ->
  part (NBranch (NSink a quiet) (spy_count id n)) N ->
  results id (o_trace (run N xs)) = [RCount (length (calls a (o_trace (run N xs))))].
Proof.
  intros Hnd Hp. set (c := NBranch _ _) in *.
  assert (Ha : ~ In a (id :: ids n)) by (inversion Hnd; subst; cbn in *; tauto).
  assert (Hid : ~ In id (ids n)) by (inversion Hnd; subst; inversion H2; subst; cbn in *; tauto).
  destruct (part_run c N Hp xs) as [ys Hys].
  destruct (sink_front a _ _ ys (only_node (spy_count id n)) Ha (start _)) as (A1 & A2 & A3).
  destruct (count_front id _ _ ys (only_node n) Hid 0 (start _)) as (B1 & B2 & B3).
  rewrite <- (results_proj id (ids c)), <- (calls_proj a (ids c)) by (cbn; auto).
  change (proj (ids c) (o_trace (run N xs))) with (events_of c (o_trace (run N xs))).
  rewrite Hys, run_ctrace.
  assert (E : proj (id :: ids n) (ctrace (den c) (start (den c)) ys) =
              ctrace (den (spy_count id n)) (start (den _)) ys) by exact A2.
  rewrite <- (results_proj id (id :: ids n)), E by now left.
  etransitivity; [exact B1|]. cbn [Nat.add]. f_equal. f_equal. symmetry.
  etransitivity; [exact A1 | exact B3].
Qed.

(** the standard city: events_in, in-place maps, a filter, events_out *)
Lemma city_counts i id o fs p (n : node) xs :
  NoDup (i :: id :: o :: ids n) ->
  exists P F,
    let tr := o_trace (run (spy_count i (chain fs (NCFilter id (fun x => Ret (p x)) (spy_count o n)))) xs) in
    results i tr = [RCount (P + F)] /\ results id tr = [RPassed P F] /\ results o tr = [RCount P].
Proof.
  intros Hnd. set (c2 := NCFilter id (fun x => Ret (p x)) (spy_count o n)).
  assert (Hi : ~ In i (id :: o :: ids n)) by (inversion Hnd; subst; cbn in *; tauto).
  assert (Hid : ~ In id (o :: ids n)) by (inversion Hnd; subst; inversion H2; subst; cbn in *; tauto).
  assert (Ho : ~ In o (ids n)).
  { inversion Hnd; subst. inversion H2; subst. inversion H4; subst. assumption. }
  assert (Hi' : ~ In i (ids (chain fs c2))) by (rewrite chain_ids; exact Hi).
  destruct (count_front i _ _ xs (only_node (chain fs c2)) Hi' 0 (start _)) as (A1 & A2 & A3).
  destruct (chain_front fs c2 xs) as (ys & C1 & C2).
  destruct (cfilter_front id p _ _ ys (only_node (spy_count o n)) Hid 0 0 (start _)) as (P & F & B1 & B2 & B3 & B4).
  destruct (count_front o _ _ (filter p ys) (only_node n) Ho 0 (start _)) as (D1 & D2 & D3).
  exists P, F. cbn zeta. rewrite run_ctrace.
  set (T := ctrace (den (spy_count i (chain fs c2))) (start (den _)) xs) in *.
  assert (E : proj (ids (chain fs c2)) T = ctrace (den c2) (start (den c2)) ys) by (rewrite <- C1; exact A2).
  rewrite chain_ids in E.
  split; [|split].
  - etransitivity; [exact A1|]. cbn [Nat.add]. f_equal. f_equal. rewrite C2. exact B3.
  - rewrite <- (results_proj id (ids c2)), E by now left. exact B1.
  - rewrite <- (results_proj o (ids c2)), E by (right; now left).
    assert (E2 : proj (ids (spy_count o n)) (ctrace (den c2) (start (den c2)) ys) =
                 ctrace (den (spy_count o n)) (start (den _)) (filter p ys)) by exact B2.
    rewrite <- (results_proj o (ids (spy_count o n))), E2 by now left.
    etransitivity; [exact D1|]. cbn [Nat.add]. f_equal. f_equal. rewrite <- B4. symmetry. exact D3.
Qed.
End S.

(** ---- C06 ---- *)
Section D.
Context {V : Type}.
Notation dnode := (dnode V). Notation dict := (dict V).

Lemma dnode_ind' (P : dnode -> Prop)
  (Hs : forall id args, P (DSink id args))
  (Hm : forall a o f n, P n -> P (DMap a o f n))
  (Hf : forall a p n, P n -> P (DFilter a p n))
  (Hb : forall a n, P a -> P n -> P (DBranch a n))
  (Hk : forall l, Forall P l -> P (DFork l)) : forall n, P n.
Proof.
  fix IH 1. intros n. destruct n.
  - apply Hs. - apply Hm, IH. - apply Hf, IH. - apply Hb; apply IH.
  - apply Hk. induction l as [|a l IHl]; constructor; [apply IH | exact IHl].
Qed.

Definition agree (R : list nat) (d d' : dict) : Prop := forall k, In k R -> d k = d' k.

Lemma agree_vals R args d d' : agree R d d' -> (forall k, In k args -> In k R) -> vals args d = vals args d'.
Proof. intros H Hs. apply map_ext_in. intros k Hk. apply H, Hs, Hk. Qed.

Lemma update_agree R outs vs (d d' : dict) : agree R d d' -> agree R (update outs vs d) (update outs vs d').
Proof.
  unfold update. generalize (combine outs vs) as l. intros l. revert d d'. induction l as [|[k v] l IH]; intros d d' H; cbn.
  - exact H.
  - apply IH. intros j Hj. cbn. destruct (j =? k); [reflexivity | apply H, Hj].
Qed.

Lemma update_other outs vs (d : dict) k : ~ In k outs -> update outs vs d k = d k.
Proof.
  unfold update. revert vs d. induction outs as [|o outs IH]; intros vs d Hk; cbn; [reflexivity|].
  destruct vs as [|v vs]; cbn; [reflexivity|]. rewrite IH by (intros Hi; apply Hk; now right).
  cbn. destruct (Nat.eqb_spec k o); [subst; exfalso; apply Hk; now left | reflexivity].
Qed.


Notation ev := (ev dict). Notation machine := (machine dict).

(** two traces that differ only in entries outside R *)
Definition er (R : list nat) (e e' : ev) : Prop :=
  match e, e' with
  | Eff i d, Eff j d' => i = j /\ agree R d d'
  | Fut i r, Fut j r' => i = j /\ r = r'
  | _, _ => False
  end.

Lemma er_calls R args id tr tr' : Forall2 (er R) tr tr' -> (forall k, In k args -> In k R) ->
  map (vals args) (calls id tr) = map (vals args) (calls id tr').
Proof.
  intros H Hs. induction H as [|e e' tr tr' He Htr IH]; [reflexivity|].
  rewrite (calls_cons id e), (calls_cons id e'), !map_app, IH. f_equal.
  unfold calls. cbn. destruct e as [i d|i r], e' as [j d'|j r']; cbn in He; try contradiction; [|reflexivity].
  destruct He as [-> Ha]. destruct (j =? id); [|reflexivity]. cbn. f_equal. eapply agree_vals; eassumption.
Qed.

(** stepwise *)
Record well (m : machine) (rd wr : list nat) (ok : St m -> Prop) : Prop := {
  w_start : ok (start m);
  w_send : forall s d, ok s -> let '(s1, d1, tr, e) := send m s d in
     ok s1 /\ e = None /\ forall k, ~ In k wr -> d1 k = d k;
  w_frame : forall R s d d', ok s -> (forall k, In k rd -> In k R) -> agree R d d' ->
     let '(s1, d1, tr, e) := send m s d in let '(s1', d1', tr', e') := send m s d' in
     s1 = s1' /\ agree R d1 d1' /\ Forall2 (er R) tr tr' }.

Definition fork_wr (l : list dnode) := flat_map writes l.

Lemma well_fork (l : list dnode) :
  Forall (fun c => exists ok, well (den (compile c)) (reads c) (writes c) ok) l ->
  exists okl : fork_st (map den (map compile l)) -> Prop,
    okl (fork_start _) /\
    (forall s d, okl s -> let '(s1, d1, tr, e) := fork_send _ s d in
       okl s1 /\ e = None /\ forall k, ~ In k (flat_map writes l) -> d1 k = d k) /\
    (forall R s d d', okl s -> (forall k, In k (flat_map reads l) -> In k R) -> agree R d d' ->
       let '(s1, d1, tr, e) := fork_send _ s d in let '(s1', d1', tr', e') := fork_send _ s d' in
       s1 = s1' /\ agree R d1 d1' /\ Forall2 (er R) tr tr').
Proof.
  induction 1 as [|c l [ok Hc] Hl (okl & I0 & I1 & I2)]; cbn.
  - exists (fun _ => True). repeat split; auto.
  - exists (fun r => ok (fst r) /\ okl (snd r)). split; [|split].
    + split; [apply Hc | exact I0].
    + intros [s ss] d [Hs Hss]. cbn in Hs, Hss.
      pose proof (w_send _ _ _ _ Hc s d Hs) as H1.
      destruct (send (den (compile c)) s d) as [[[s1 d1] tr] e]. destruct H1 as (K1 & -> & K2).
      specialize (I1 ss d1 Hss).
      destruct (fork_send (map den (map compile l)) ss d1) as [[[ss1 d2] tr2] e2]. destruct I1 as (K3 & -> & K4).
      repeat split; auto. intros k Hk. rewrite K4, K2; [reflexivity| |]; intros Hi; apply Hk, in_app_iff; auto.
    + intros R [s ss] d d' [Hs Hss] Hr Ha. cbn in Hs, Hss.
      pose proof (w_frame _ _ _ _ Hc R s d d' Hs) as H1.
      pose proof (w_send _ _ _ _ Hc s d Hs) as G1. pose proof (w_send _ _ _ _ Hc s d' Hs) as G2.
      destruct (send (den (compile c)) s d) as [[[s1 d1] tr] e]. 
      destruct (send (den (compile c)) s d') as [[[s1' d1'] tr'] e']. 
      destruct G1 as (_ & -> & _). destruct G2 as (_ & -> & _).
      destruct H1 as (-> & K2 & K3); [intros k Hk; apply Hr, in_app_iff; auto | exact Ha|].
      specialize (I2 R ss d1 d1' Hss).
      destruct (fork_send (map den (map compile l)) ss d1) as [[[ss1 d2] tr2] e2].
      destruct (fork_send (map den (map compile l)) ss d1') as [[[ss1' d2'] tr2'] e2'].
      destruct I2 as (-> & K4 & K5); [intros k Hk; apply Hr, in_app_iff; auto | exact K2|].
      repeat split; auto. now apply Forall2_app.
Qed.

Lemma well_compile (c : dnode) : exists ok, well (den (compile c)) (reads c) (writes c) ok.
Proof.
  induction c using dnode_ind'; cbn [compile den reads writes].
  - exists (fun s => s <> None). constructor; [discriminate| |].
    + intros [[]|] d Hs; [|contradiction]. cbn. repeat split; auto; discriminate.
    + intros R [[]|] d d' Hs Hr Ha; [|contradiction]. cbn. repeat split; auto.
      constructor; [cbn; auto | constructor].
  - destruct IHc as [ok H]. exists (fun s => match s with Some s => ok s | None => False end). constructor.
    + apply H.
    + intros [s|] d Hs; [|contradiction]. cbn.
      pose proof (w_send _ _ _ _ H s (update o (f (vals a d)) d) Hs) as G.
      destruct (send (den (compile c)) s _) as [[[s1 d1] tr] e]. destruct G as (K1 & -> & K2).
      repeat split; auto. intros k Hk. rewrite K2, update_other; [reflexivity| |]; intros Hi; apply Hk, in_app_iff; auto.
    + intros R [s|] d d' Hs Hr Ha; [|contradiction]. cbn.
      assert (E : vals a d = vals a d') by (eapply agree_vals; [exact Ha | intros k Hk; apply Hr, in_app_iff; auto]).
      rewrite E.
      pose proof (w_frame _ _ _ _ H R s _ _ Hs (fun k Hk => Hr k (in_or_app _ _ _ (or_intror Hk)))
                   (update_agree R o (f (vals a d')) d d' Ha)) as G.
      pose proof (w_send _ _ _ _ H s (update o (f (vals a d')) d) Hs) as G1.
      pose proof (w_send _ _ _ _ H s (update o (f (vals a d')) d') Hs) as G2.
      destruct (send (den (compile c)) s (update o (f (vals a d')) d)) as [[[s1 d1] tr] e].
      destruct (send (den (compile c)) s (update o (f (vals a d')) d')) as [[[s1' d1'] tr'] e'].
      destruct G1 as (_ & -> & _). destruct G2 as (_ & -> & _). destruct G as (-> & K1 & K2). auto.
  - destruct IHc as [ok H]. exists (fun s => match s with Some s => ok s | None => False end). constructor.
    + apply H.
    + intros [s|] d Hs; [|contradiction]. cbn. destruct (p (vals a d)); [|auto].
      pose proof (w_send _ _ _ _ H s d Hs) as G.
      destruct (send (den (compile c)) s d) as [[[s1 d1] tr] e]. destruct G as (K1 & -> & K2). auto.
    + intros R [s|] d d' Hs Hr Ha; [|contradiction]. cbn.
      assert (E : vals a d = vals a d') by (eapply agree_vals; [exact Ha | intros k Hk; apply Hr, in_app_iff; auto]).
      rewrite E. destruct (p (vals a d')); [|repeat split; auto].
      pose proof (w_frame _ _ _ _ H R s _ _ Hs (fun k Hk => Hr k (in_or_app _ _ _ (or_intror Hk))) Ha) as G.
      pose proof (w_send _ _ _ _ H s d Hs) as G1. pose proof (w_send _ _ _ _ H s d' Hs) as G2.
      destruct (send (den (compile c)) s d) as [[[s1 d1] tr] e].
      destruct (send (den (compile c)) s d') as [[[s1' d1'] tr'] e'].
      destruct G1 as (_ & -> & _). destruct G2 as (_ & -> & _). destruct G as (-> & K1 & K2). auto.
  - destruct IHc1 as [oka Ha]. destruct IHc2 as [ok H].
    exists (fun s => match s with Some s => oka (fst s) /\ ok (snd s) | None => False end). constructor.
    + split; [apply Ha | apply H].
    + intros [[sa s]|] d Hs; [|contradiction]. destruct Hs as [Hsa Hs]. cbn in Hsa, Hs. cbn.
      pose proof (w_send _ _ _ _ Ha sa d Hsa) as G.
      destruct (send (den (compile c1)) sa d) as [[[sa1 d1] tra] e]. destruct G as (K1 & -> & K2).
      pose proof (w_send _ _ _ _ H s d1 Hs) as G.
      destruct (send (den (compile c2)) s d1) as [[[s1 d2] tr] e]. destruct G as (K3 & -> & K4).
      repeat split; auto. intros k Hk. rewrite K4, K2; [reflexivity| |]; intros Hi; apply Hk, in_app_iff; auto.
    + intros R [[sa s]|] d d' Hs Hr Hd; [|contradiction]. destruct Hs as [Hsa Hs]. cbn in Hsa, Hs. cbn.
      pose proof (w_frame _ _ _ _ Ha R sa _ _ Hsa (fun k Hk => Hr k (in_or_app _ _ _ (or_introl Hk))) Hd) as G.
      pose proof (w_send _ _ _ _ Ha sa d Hsa) as G1. pose proof (w_send _ _ _ _ Ha sa d' Hsa) as G2.
      destruct (send (den (compile c1)) sa d) as [[[sa1 d1] tra] e].
      destruct (send (den (compile c1)) sa d') as [[[sa1' d1'] tra'] e'].
      destruct G1 as (_ & -> & _). destruct G2 as (_ & -> & _). destruct G as (-> & K1 & K2).
      pose proof (w_frame _ _ _ _ H R s _ _ Hs (fun k Hk => Hr k (in_or_app _ _ _ (or_intror Hk))) K1) as G.
      pose proof (w_send _ _ _ _ H s d1 Hs) as G1. pose proof (w_send _ _ _ _ H s d1' Hs) as G2.
      destruct (send (den (compile c2)) s d1) as [[[s1 d2] tr] e].
      destruct (send (den (compile c2)) s d1') as [[[s1' d2'] tr'] e'].
      destruct G1 as (_ & -> & _). destruct G2 as (_ & -> & _). destruct G as (-> & K3 & K4).
      repeat split; auto. now apply Forall2_app.
  - destruct (well_fork l H) as (okl & I0 & I1 & I2).
    exists (fun s => match s with Some s => okl s | None => False end). constructor.
    + exact I0.
    + intros [s|] d Hs; [|contradiction]. cbn. specialize (I1 s d Hs).
      destruct (fork_send (map den (map compile l)) s d) as [[[s1 d1] tr] e]. destruct I1 as (K1 & -> & K2). auto.
    + intros R [s|] d d' Hs Hr Hd; [|contradiction]. cbn.
      pose proof (I1 s d Hs) as G1. pose proof (I1 s d' Hs) as G2. specialize (I2 R s d d' Hs Hr Hd).
      destruct (fork_send (map den (map compile l)) s d) as [[[s1 d1] tr] e].
      destruct (fork_send (map den (map compile l)) s d') as [[[s1' d1'] tr'] e'].
      destruct G1 as (_ & -> & _). destruct G2 as (_ & -> & _). destruct I2 as (-> & K3 & K4). auto.
Qed.

(** one branch of a fork, next to the same pipeline alone *)
Lemma fork_alone l1 (c : dnode) l2 ok : well (den (compile c)) (reads c) (writes c) ok ->
  (forall k, In k (reads c) -> ~ In k (flat_map writes l1)) ->
  apart (flat_map (fun c => ids (compile c)) (l1 ++ l2)) (ids (compile c)) ->
  exists (live : fork_st (map den (map compile (l1 ++ c :: l2))) -> St (den (compile c)) -> Prop),
    live (fork_start _) (start _) /\
    forall r s x, live r s ->
      let '(r1, _, tr, e) := fork_send _ r x in
      let '(s1, _, trc, ec) := send (den (compile c)) s x in
      e = None /\ live r1 s1 /\ ec = None /\ Forall2 (er (reads c)) (proj (ids (compile c)) tr) trc.
Proof.
  intros Hc. 
  assert (Hl2 : Forall (fun c => exists ok, well (den (compile c)) (reads c) (writes c) ok) l2)
    by (apply Forall_forall; intros; apply well_compile).
  destruct (well_fork l2 Hl2) as (ok2 & J0 & J1 & _).
  assert (O2 : forall s x, evs_in (flat_map (fun c => ids (compile c)) l2) (snd (fst (fork_send (map den (map compile l2)) s x)))).
  { apply fork_only. rewrite map_map. apply Forall_map, Forall_forall. intros b Hb. eapply only_sub; [|apply only_node].
    intros i Hi. apply in_flat_map. eauto. }
  (* generalised over the item as modified by the branches already served *)
  assert (G : forall l1, (forall k, In k (reads c) -> ~ In k (flat_map writes l1)) ->
    apart (flat_map (fun c => ids (compile c)) (l1 ++ l2)) (ids (compile c)) ->
    exists (live : fork_st (map den (map compile (l1 ++ c :: l2))) -> St (den (compile c)) -> Prop),
    live (fork_start _) (start _) /\
    forall r s x d, live r s -> agree (reads c) d x ->
      let '(r1, _, tr, e) := fork_send _ r d in
      let '(s1, _, trc, ec) := send (den (compile c)) s x in
      e = None /\ live r1 s1 /\ ec = None /\ Forall2 (er (reads c)) (proj (ids (compile c)) tr) trc).
  { clear l1. induction l1 as [|b l1 IH]; cbn [app map]; intros Hw Hap.
    - exists (fun r s => ok s /\ fst r = s /\ ok2 (snd r)). split; [split; [apply Hc | split; [reflexivity | exact J0]]|].
      intros [s0 ss] s x d (Hs & E & Hss) Hd. cbn in E, Hss. subst s0. cbn [fork_send].
      pose proof (w_frame _ _ _ _ Hc (reads c) s d x Hs (fun k Hk => Hk) Hd) as G.
      pose proof (w_send _ _ _ _ Hc s d Hs) as G1. pose proof (w_send _ _ _ _ Hc s x Hs) as G2.
      pose proof (only_send _ _ (only_node (compile c)) s d) as Oc.
      destruct (send (den (compile c)) s d) as [[[s1 d1] tr] e].
      destruct (send (den (compile c)) s x) as [[[s1' d1'] tr'] e'].
      destruct G1 as (K1 & -> & _). destruct G as (<- & _ & K2). destruct G2 as (_ & -> & _).
      specialize (J1 ss d1 Hss). specialize (O2 ss d1).
      destruct (fork_send (map den (map compile l2)) ss d1) as [[[ss1 d2] tr2] e2]. destruct J1 as (K3 & -> & _).
      repeat split; auto. cbn in Oc, O2. rewrite proj_app, (proj_all _ _ Oc).
      rewrite (proj_none _ _ _ Hap O2), app_nil_r. exact K2.
    - destruct IH as (live & L0 & L1).
      { intros k Hk Hi. apply (Hw k Hk). cbn. apply in_app_iff. now right. }
      { intros i Hi. apply Hap. cbn. apply in_app_iff. now right. }
      destruct (well_compile b) as [okb Hb].
      exists (fun r s => okb (fst r) /\ live (snd r) s). split; [split; [apply Hb | exact L0]|].
      intros [sb ss] s x d [Hsb Hss] Hd. cbn in Hsb, Hss. cbn [fork_send].
      pose proof (w_send _ _ _ _ Hb sb d Hsb) as G1. pose proof (only_send _ _ (only_node (compile b)) sb d) as Ob.
      destruct (send (den (compile b)) sb d) as [[[sb1 d1] trb] e]. destruct G1 as (K1 & -> & K2).
      assert (Hd1 : agree (reads c) d1 x).
      { intros k Hk. rewrite K2; [apply Hd, Hk|]. intros Hi. apply (Hw k Hk). cbn. apply in_app_iff. now left. }
      specialize (L1 ss s x d1 Hss Hd1).
      destruct (fork_send (map den (map compile (l1 ++ c :: l2))) ss d1) as [[[ss1 d2] tr2] e2].
      destruct (send (den (compile c)) s x) as [[[s1' d1'] tr'] e'].
      destruct L1 as (-> & K3 & -> & K4). repeat split; auto.
      cbn in Ob. rewrite proj_app, (proj_none _ (ids (compile b)) trb); [exact K4| |exact Ob].
      intros i Hi. apply Hap. cbn. apply in_app_iff. now left. }
  intros Hw Hap. destruct (G l1 Hw Hap) as (live & L0 & L1). exists live. split; [exact L0|].
  intros r s x Hl. apply L1; [exact Hl | intros k _; reflexivity].
Qed.

Lemma compile_calm (c : dnode) : calm (den (compile c)) (start (den (compile c))).
Proof.
  destruct (well_compile c) as [ok H].
  assert (G : forall ys s, ok s -> raises (den (compile c)) s ys = None).
  { induction ys as [|y ys IH]; intros s Hs; cbn; [reflexivity|].
    pose proof (w_send _ _ _ _ H s y Hs) as G.
    destruct (send (den (compile c)) s y) as [[[s1 d1] tr] e]. destruct G as (K1 & -> & _). apply IH, K1. }
  intros ys. apply G, H.
Qed.

Lemma fork_isolated l1 (c : dnode) l2 xs id args :
  (forall k, In k (reads c) -> ~ In k (flat_map writes l1)) ->
  apart (flat_map (fun c => ids (compile c)) (l1 ++ l2)) (ids (compile c)) ->
  sink_of c id args ->
  map (vals args) (calls id (o_trace (run (compile (DFork (l1 ++ c :: l2))) xs))) =
  map (vals args) (calls id (o_trace (run (compile c) xs))).
Proof.
  intros Hw Hap Hs. destruct (well_compile c) as [ok Hc].
  destruct (fork_alone l1 c l2 ok Hc Hw Hap) as (live & L0 & L1).
  assert (Hid : In id (ids (compile c)) /\ (forall k, In k args -> In k (reads c))).
  { clear -Hs. induction Hs; cbn; try tauto.
    - destruct IHHs. split; [auto|]. intros; apply in_app_iff; auto.
    - destruct IHHs. split; [auto|]. intros; apply in_app_iff; auto.
    - destruct IHHs. split; [apply in_app_iff; auto|]. intros; apply in_app_iff; auto.
    - destruct IHHs. split; [apply in_app_iff; auto|]. intros; apply in_app_iff; auto.
    - destruct IHHs. split; [|intros; apply in_flat_map; eauto].
      apply in_flat_map. exists (compile c). split; [now apply in_map | auto]. }
  destruct Hid as [Hid Hargs].
  rewrite !run_ctrace. cbn [compile den].
  assert (G : forall xs r s, live r s ->
     map (vals args) (calls id (ctrace (fork_m (map den (map compile (l1 ++ c :: l2)))) (Some r) xs)) =
     map (vals args) (calls id (ctrace (den (compile c)) s xs))).
  { clear xs. induction xs as [|x xs IH]; intros r s Hl.
    - rewrite !ctrace_nil.
      pose proof (silent_node (compile c) s id) as Q1.
      pose proof (silent_node (compile (DFork (l1 ++ c :: l2))) (Some r) id) as Q2.
      cbn [compile den] in Q2. rewrite Q1. etransitivity; [apply f_equal; exact Q2 | reflexivity].
    - specialize (L1 r s x Hl).
      destruct (fork_send (map den (map compile (l1 ++ c :: l2))) r x) as [[[r1 x1] tr] e] eqn:Ef.
      destruct (send (den (compile c)) s x) as [[[s1 x1'] trc] ec] eqn:Ec.
      destruct L1 as (-> & Hl1 & -> & Ht).
      erewrite (ctrace_ok (fork_m _)) by (cbn; rewrite Ef; reflexivity).
      erewrite (ctrace_ok (den (compile c))) by exact Ec.
      rewrite !calls_app, !map_app. f_equal.
      + rewrite <- (calls_proj id (ids (compile c))) by exact Hid. eapply er_calls; eassumption.
      + apply IH, Hl1. }
  apply G, L0.
Qed.
End D.
