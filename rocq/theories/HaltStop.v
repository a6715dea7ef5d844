(** C121: what a run that is stopped between two writes leaves in its file, for the cities of the reconstruction *)
From Coq Require Import String.
From Verif Require Import Base ConfigModel TablesModel PsfModel DeconvModel PeaksModel BuffersModel.
From Verif Require Import ReadModel.
From Verif Require Import PmapioModel FiltersModel XyModel HitsModel CorrModel EsmModel SophModel SoeModel KrModel PreadModel DorModel SrunModel.
From Verif Require Import PaolinaModel TopoModel ErunModel BeerModel BrunModel IsaModel FrunModel HrunModel IsiModel JobModel.
From Verif Require Import IdWf IdReco JobProofs.
From Verif Require Import HaltStopSpec.
From Verif Require Import HaltBase HaltModel HaltSpec HaltProofs HaltReco.
Local Open Scope nat_scope.

(** ---- the points where a program may be interrupted ---- *)
Lemma in_bind {T A B} (p : prog T A) (q : A -> prog T B) t : forall t0, In t (visited (bind p q) t0) -> In t (visited p t0) \/ exists t1 a, p t0 = (t1, Ok a) /\ In t (visited (q a) t1).
Proof.
  induction p as [a|e|f p IH|k IH]; intros t0; cbn [bind visited exec].
  - intros H. right. exists t0, a. auto.
  - intros H. now left.
  - intros [<-|H]; [left; now left|]. destruct (IH (f t0) H) as [H1|H1]; [left; now right|right; exact H1].
  - intros H. exact (IH t0 t0 H).
Qed.
Lemma in_put {T B} (f : T -> T) (q : unit -> prog T B) t t0 : In t (visited (bind (put f) q) t0) -> t = t0 \/ In t (visited (q tt) (f t0)).
Proof. intros [<-|H]; auto. Qed.
Lemma in_put1 {T} (f : T -> T) t t0 : In t (visited (put f) t0) -> t = t0 \/ t = f t0.
Proof. intros [<-|[<-|[]]]; auto. Qed.
Lemma in_ret {T A} (a : A) (t t0 : T) : In t (visited (ret a) t0) -> t = t0.
Proof. intros [<-|[]]. reflexivity. Qed.
Lemma in_call {T A B} (r : result A) (q : A -> prog T B) t t0 : In t (visited (bind (call r) q) t0) -> match r with Ok a => In t (visited (q a) t0) | Err _ => t = t0 end.
Proof. destruct r; cbn; [auto|]. intros [<-|[]]. reflexivity. Qed.
Lemma in_each {T A R} (f : A -> result R) (add : R -> T -> T) (P : T -> T -> Prop) : (forall t, P t t) -> (forall a r t u, f a = Ok r -> P (add r t) u -> P t u) ->
  forall l t u, In u (visited (each l (fun a => r <- call (f a) ;; put (add r))) t) -> P t u.
Proof.
  intros H0 H1. induction l as [|a l IH]; intros t u; cbn [each]; [intros H; apply in_ret in H; subst; apply H0|].
  intros H. apply in_bind in H. destruct H as [H|(t1 & [] & E & H)].
  - apply in_call in H. destruct (f a) as [r|] eqn:F; [|subst; apply H0]. apply in_put1 in H. destruct H as [->| ->]; [apply H0|]. apply (H1 a r t _ F). apply H0.
  - rewrite bind_call in E. destruct (f a) as [r|] eqn:F; [|discriminate]. cbn in E. injection E as <-. apply (H1 a r t u F). apply IH. exact H.
Qed.

Section Stops.
  Context {I O T : Type}.
  Variable run : list I -> O -> result O.
  Variable view : O -> T.
  Variable step : I -> prog T unit.
  Hypothesis app : forall a b o, run (a ++ b) o = rbind (run a o) (run b).
  Hypothesis nil : forall o, run [] o = Ok o.
  Hypothesis one : forall it o, outcome (step it (view o)) = rbind (run [it] o) (fun o => Ok (view o)).
  Lemma stops items : forall o t, In t (visited (each items step) (view o)) -> exists before o1, run before o = Ok o1 /\
    ((before = items /\ t = view o1) \/ exists it after, items = before ++ it :: after /\ In t (visited (step it) (view o1))).
  Proof.
    induction items as [|it items IH]; intros o t; cbn [each]; [intros H; apply in_ret in H; subst; exists [], o; rewrite nil; auto|].
    intros H. apply in_bind in H. destruct H as [H|(t1 & [] & E & H)].
    - exists [], o. rewrite nil. split; [reflexivity|]. right. exists it, items. auto.
    - pose proof (one it o) as K. rewrite E in K. cbn in K. destruct (run [it] o) as [o1|e1] eqn:R1; [|discriminate]. cbn in K. injection K as ->.
      destruct (IH o1 t H) as (b & o2 & H1 & H2). exists (it :: b), o2. split; [change (it :: b) with ([it] ++ b); rewrite app, R1; exact H1|].
      destruct H2 as [[-> ->]|(i & a & -> & H2)]; [left; auto|right; exists i, a; auto].
  Qed.
  Variable source : list I * option pyexc.
  Variable empty : O.
  Variable more : I -> T -> T -> Prop.
  Variable same : T -> T -> Prop.
  Hypothesis visits : forall it o t, In t (visited (step it) (view o)) -> more it (view o) t \/ exists t', step it (view o) = (t', Ok tt) /\ same t' t.
  Lemma city_stops (range : nat -> result O) : (forall k, range k = whole run empty (ranged (0, Some k) source)) ->
    forall t, In t (stopped step source (view empty)) -> stopped_by source (first_events view empty range) more same t.
  Proof.
    intros R t H. unfold stopped in H. destruct source as [items re]. cbn [fst] in H. destruct (stops items empty t H) as (b & o1 & H1 & H2).
    assert (F : forall b o1, run b empty = Ok o1 -> (exists a, items = b ++ a) -> first_events view empty range (List.length b) (view o1)).
    { clear H1 H2 b o1. intros b o1 H1 (a & E). unfold first_events. destruct b as [|i b]; [cbn; rewrite nil in H1; now injection H1 as <-|].
      cbn [List.length]. exists o1. split; [|reflexivity]. rewrite R. unfold whole. rewrite E, ranged_first by (rewrite ?app_length; cbn [List.length]; lia). cbn [fst snd].
      replace (S (List.length b)) with (List.length (i :: b) + 0) by (cbn; lia). rewrite firstn_app_2. cbn [firstn]. rewrite app_nil_r, H1. reflexivity. }
    exists (List.length b), (view o1). destruct H2 as [[-> ->]|(it & a & E & H2)].
    - split; [apply F; [exact H1|exists []; now rewrite app_nil_r]|]. left. auto.
    - split; [apply F; [exact H1|eexists; exact E]|]. right. exists it. split; [cbn; rewrite E, nth_error_app2 by lia; now rewrite Nat.sub_diag|].
      destruct (visits it o1 t H2) as [M|(t' & S1 & S2)]; [left; exact M|]. right. exists t'. split; [|exact S2].
      pose proof (one it o1) as K. rewrite S1 in K. cbn in K. destruct (run [it] o1) as [o2|e1] eqn:R1; [|discriminate]. cbn in K. injection K as ->.
      replace (S (List.length b)) with (List.length (b ++ [it])) by (rewrite app_length; cbn; lia). apply F; [|exists a; rewrite <- app_assoc; exact E].
      rewrite app, H1. exact R1.
  Qed.
End Stops.

(** rows added to what has grown *)
Lemma grown_add {A} (key : A -> Z) n a b m : grown key n a b -> (forall r, In r m -> key r = n) -> grown key n a (b ++ m).
Proof. intros (x & -> & Hx) Hm. exists (x ++ m). split; [symmetry; apply app_assoc|]. intros r Hr. apply in_app_or in Hr. destruct Hr; auto. Qed.
Lemma no_rows {A} (P : A -> Prop) : forall r, In r [] -> P r. Proof. intros r []. Qed.
Lemma one_row {A} (P : A -> Prop) a : P a -> forall r, In r [a] -> P r. Proof. intros H r [<-|[]]. exact H. Qed.
Lemma pair_rows {A} (n : Z) (l : list A) : forall r, In r (map (pair n) l) -> fst r = n.
Proof. intros r Hr. apply in_map_iff in Hr. destruct Hr as (h & <- & _). reflexivity. Qed.

(** ---- dorothea ---- *)
Section Dor.
  Variables (xys : list (Q * Q)) (v : Q) (noise : list nat -> list Q -> Z -> list Q) (sw : Q -> Z) (ct : charge_type) (sqrt : Q -> Q) (atan : Q -> Q -> Q) (qthr : Q) (s : selector).
  Let step := dorothea_step xys v noise sw ct sqrt atan qthr s.
  Lemma dor_refl it o : dor_more it o o.
  Proof. split; [reflexivity|split; apply grown_same]. Qed.
  Lemma dor_put it o t f k n i u p g : dor_more it o t -> (forall r, In r f -> fst r = pi_event it) -> (forall r, In r k -> w_event r = pi_event it) -> dor_more it o (dor_add f k [] n i u p g t).
  Proof. intros (A & B & C) F K. unfold dor_add. split; [|split]; h_end; [now rewrite app_nil_r|apply grown_add; assumption|apply grown_add; assumption]. Qed.
  Lemma dor_visits it o t : In t (visited (step it) ((fun o => o) o)) -> dor_more it ((fun o => o) o) t \/ exists t', step it ((fun o => o) o) = (t', Ok tt) /\ dor_same t' t.
  Proof.
    unfold step, dorothea_step. cbv beta. rewrite bind_put. intros H. apply in_put in H. destruct H as [->|H]; [left; apply dor_refl|].
    match type of H with In _ (visited _ ?u) => set (t1 := u) in *; assert (M : dor_more it o t1) by (apply dor_put; [apply dor_refl|apply one_row; reflexivity|apply no_rows]) end.
    clearbody t1. destruct (passed _); [|left; apply in_ret in H; now subst]. rewrite bind_put. apply in_put in H. destruct H as [->|H]; [now left|].
    match type of H with In _ (visited _ ?u) => set (t2 := u) in *; assert (M2 : dor_more it o t2) by (apply dor_put; [exact M|apply no_rows|apply no_rows]) end. clearbody t2. clear M t1.
    rewrite bind_call. apply in_call in H. destruct (build_pointlike_event _ _ _ _ _ _ _ _ _) as [ev|] eqn:B; [|subst; now left]. apply pointlike_event in B. destruct B as [B _].
    rewrite bind_put. apply in_put in H. destruct H as [->|H]; [now left|].
    match type of H with In _ (visited _ ?u) => set (t1 := u) in *; assert (M : dor_more it o t1) by (apply dor_put; [exact M2|apply no_rows|apply no_rows]) end. clearbody t1. clear M2 t2. rename M into M2.
    rewrite exec_bind. apply in_bind in H. destruct H as [H|(t3 & [] & E & H)].
    - left. unfold kr_write in H. revert M2. revert H. apply (in_each _ _ (fun t u => dor_more it o t -> dor_more it o u)); [auto|]. intros [i j] r t3 u E K M3. apply K. apply dor_put; [exact M3|apply no_rows|].
      apply one_row. apply kr_row_event in E. rewrite E. exact B.
    - rewrite E. apply in_put1 in H. destruct H as [->| ->].
      + left. unfold kr_write in E. revert M2. revert E. apply (each_rows_left _ _ (fun t u => dor_more it o t -> dor_more it o u)); [auto|]. intros [i j] r t4 u E1 K M3. apply K. apply dor_put; [exact M3|apply no_rows|].
        apply one_row. apply kr_row_event in E1. rewrite E1. exact B.
      + right. eexists. split; [reflexivity|]. split; [|split]; reflexivity.
  Qed.
End Dor.
Theorem C121_dorothea_stopped : forall xys v noise sw ct sqrt atan qthr c s files, mk_selector c = Ok s ->
  forall t, In t (stopped (dorothea_step xys v noise sw ct sqrt atan qthr s) (pmap_from_files files) no_output) ->
    stopped_by (pmap_from_files files) (first_events (fun o => o) no_output (fun k => dorothea_range xys v noise sw ct sqrt atan qthr (0, Some k) c files)) dor_more dor_same t.
Proof.
  intros xys v noise sw ct sqrt atan qthr c s files Hs. apply (city_stops (dorothea_run xys v noise sw ct sqrt atan qthr s) (fun o => o) (dorothea_step xys v noise sw ct sqrt atan qthr s)
    (dor_app xys v noise sw ct sqrt atan qthr s tt) (fun _ => eq_refl) (dor_one xys v noise sw ct sqrt atan qthr s) (pmap_from_files files) no_output dor_more dor_same (dor_visits xys v noise sw ct sqrt atan qthr s)).
  intros k. unfold dorothea_range. rewrite Hs. cbn [rbind]. apply whole_eq.
Qed.
Print Assumptions C121_dorothea_stopped.
