(** Programs that change tables: how they relate to the models of the runs *)
From Coq Require Import String.
From Verif Require Import Base ReadModel JobModel HaltBase HaltSpec.
Local Open Scope nat_scope.

(** the result of a program, when the tables left by an exception do not matter *)
Definition outcome {T A} (x : T * result A) : result T := match snd x with Ok _ => Ok (fst x) | Err e => Err e end.

Lemma exec_bind {T A B} (p : prog T A) (q : A -> prog T B) : forall t, bind p q t = match p t with (t, Ok a) => q a t | (t, Err e) => (t, Err e) end.
Proof. induction p as [a|e|f p IH|k IH]; intros t; cbn [bind exec]; [reflexivity|reflexivity|apply IH|apply IH]. Qed.
Lemma exec_within {T U A} (get : U -> T) (set : T -> U -> U) : (forall t u, get (set t u) = t) -> (forall t t' u, set t (set t' u) = set t u) -> (forall u, set (get u) u = u) ->
  forall (p : prog T A) u, within get set p u = let (t, r) := p (get u) in (set t u, r).
Proof.
  intros H1 H2 H3. induction p as [a|e|f p IH|k IH]; intros u; cbn [within exec]; [now rewrite H3|now rewrite H3| |apply IH].
  rewrite IH, H1. destruct (exec p (f (get u))). now rewrite H2.
Qed.
Lemma bind_ok {T A B} (p : prog T A) (q : A -> prog T B) t t1 a : p t = (t1, Ok a) -> bind p q t = q a t1.
Proof. intros H. rewrite exec_bind. now rewrite H. Qed.
Lemma bind_put {T B} (f : T -> T) (q : unit -> prog T B) t : bind (put f) q t = q tt (f t).
Proof. reflexivity. Qed.
Lemma bind_look {T A B} (f : T -> A) (q : A -> prog T B) t : bind (look f) q t = q (f t) t.
Proof. reflexivity. Qed.
Lemma bind_call {T A B} (r : result A) (q : A -> prog T B) t : bind (call r) q t = match r with Ok a => q a t | Err e => (t, Err e) end.
Proof. rewrite exec_bind. unfold call. destruct r; reflexivity. Qed.
Lemma bind_out {T A B} (p : prog T A) (q : A -> prog T B) t : outcome (bind p q t) = match p t with (t1, Ok a) => outcome (q a t1) | (_, Err e) => Err e end.
Proof. rewrite exec_bind. destruct (p t) as [t1 [a|e]]; reflexivity. Qed.
Lemma bind_unit {T B} (p : prog T unit) (q : unit -> prog T B) t : outcome (bind p q t) = rbind (outcome (p t)) (fun t1 => outcome (q tt t1)).
Proof. rewrite exec_bind. unfold outcome. destruct (p t) as [t1 [[]|e]]; reflexivity. Qed.

Lemma out_put {T} (f : T -> T) t : outcome (put f t) = Ok (f t).
Proof. reflexivity. Qed.
Lemma out_ret {T A} (a : A) (t : T) : outcome (ret a t) = Ok t.
Proof. reflexivity. Qed.

(** a loop of calls, each followed by a row *)
Lemma each_rows {T A R} (f : A -> result R) (add : R -> T -> T) (adds : list R -> T -> T) : (forall t, adds [] t = t) -> (forall r rs t, adds (r :: rs) t = adds rs (add r t)) ->
  forall l t, outcome (each l (fun a => r <- call (f a) ;; put (add r)) t) = rbind (rmap f l) (fun rs => Ok (adds rs t)).
Proof.
  intros H0 H1. induction l as [|a l IH]; intros t; cbn [each rmap]; [cbn; now rewrite H0|].
  rewrite bind_unit, bind_call. destruct (f a) as [r|e]; [|reflexivity]. cbn [outcome rbind]. change (outcome (put (add r) t)) with (Ok (add r t)). cbn [rbind]. rewrite IH.
  destruct (rmap f l); cbn [rbind]; [now rewrite H1|reflexivity].
Qed.
(** and what it leaves when it fails *)
Lemma each_rows_left {T A R} (f : A -> result R) (add : R -> T -> T) (P : T -> T -> Prop) : (forall t, P t t) -> (forall a r t u, f a = Ok r -> P (add r t) u -> P t u) ->
  forall l t u x, each l (fun a => r <- call (f a) ;; put (add r)) t = (u, x) -> P t u.
Proof.
  intros H0 H1. induction l as [|a l IH]; intros t u x; cbn [each]; [intros E; inversion E; apply H0|].
  rewrite exec_bind. rewrite bind_call. destruct (f a) as [r|e] eqn:F; [|intros E; inversion E; apply H0].
  cbn. intros E. apply (H1 a r t u F). eapply IH. exact E.
Qed.

Lemma ranged_first {A} (items : list A) (e : option pyexc) k : 0 < k -> k <= List.length items -> ranged (0, Some k) (items, e) = (firstn k items, None).
Proof.
  intros H1 H2. unfold ranged. destruct (Nat.leb_spec k 0); [lia|]. destruct (Nat.leb_spec k (List.length items)); [|lia]. cbn [skipn]. now rewrite Nat.sub_0_r.
Qed.
Section Link.
  Context {I O T : Type}.
  Variable run : list I -> O -> result O.
  Variable view : O -> T.
  Variable step : I -> prog T unit.
  Hypothesis app : forall a b o, run (a ++ b) o = rbind (run a o) (run b).
  Hypothesis nil : forall o, run [] o = Ok o.
  Hypothesis one : forall it o, outcome (step it (view o)) = rbind (run [it] o) (fun o => Ok (view o)).

  Lemma all items : forall o, outcome (each items step (view o)) = rbind (run items o) (fun o => Ok (view o)).
  Proof.
    induction items as [|it items IH]; intros o; cbn [each]; [now rewrite nil|].
    rewrite bind_unit, one. change (it :: items) with ([it] ++ items). rewrite app. destruct (run [it] o) as [o1|e]; cbn [rbind]; [apply IH|reflexivity].
  Qed.
  Lemma failed items : forall o t e, each items step (view o) = (t, Err e) ->
    exists before it after o1, items = before ++ it :: after /\ run before o = Ok o1 /\ step it (view o1) = (t, Err e).
  Proof.
    induction items as [|it items IH]; intros o t e; cbn [each]; [discriminate|]. rewrite exec_bind.
    destruct (step it (view o)) as [t1 [[]|e1]] eqn:S1.
    - pose proof (one it o) as H. rewrite S1 in H. cbn in H. destruct (run [it] o) as [o1|e1] eqn:R1; [|discriminate]. cbn in H. injection H as ->.
      intros H. destruct (IH o1 t e H) as (b & i & a & o2 & -> & H1 & H2).
      exists (it :: b), i, a, o2. split; [reflexivity|split; [|exact H2]]. change (it :: b) with ([it] ++ b). rewrite app, R1. exact H1.
    - intros H. injection H as <- <-. exists [], it, items, o. now rewrite nil.
  Qed.

  Variable source : list I * option pyexc.
  Variable empty : O.
  Definition whole (source : list I * option pyexc) : result O := rbind (run (fst source) empty) (fun o => match snd source with None => Ok o | Some e => Err e end).
  Variable more : I -> T -> T -> Prop.
  Hypothesis grows : forall it o t e, step it (view o) = (t, Err e) -> more it (view o) t.
  Lemma halts t e : leave step source (view empty) = (t, Some e) ->
    whole source = Err e /\ left_by source (first_events view empty (fun k => whole (ranged (0, Some k) source))) more t e.
  Proof.
    unfold leave, whole. destruct source as [items re]. cbn [fst snd]. pose proof (all items empty) as A.
    destruct (each items step (view empty)) as [t1 [[]|e1]] eqn:E.
    - cbn in A. destruct (run items empty) as [o1|e1] eqn:R1; [|discriminate]. cbn in A. injection A as ->. cbn [rbind]. intros H. injection H as <- ->.
      split; [reflexivity|]. exists (List.length items), (view o1). split; [|left; cbn; auto].
      unfold first_events, whole. destruct items as [|it items]; [cbn; rewrite nil in R1; injection R1 as <-; reflexivity|].
      cbn [List.length]. exists o1. split; [|reflexivity]. rewrite ranged_first by (cbn [List.length]; lia). cbn [fst snd]. change (S (List.length items)) with (List.length (it :: items)).
      rewrite firstn_all, R1. reflexivity.
    - cbn in A. intros H. injection H as <- <-. destruct (failed items empty t1 e1 E) as (b & it & a & o1 & -> & H1 & H2).
      assert (R : run (b ++ it :: a) empty = Err e1) by (destruct (run (b ++ it :: a) empty); cbn in A; [discriminate|congruence]).
      rewrite R. split; [reflexivity|]. exists (List.length b), (view o1). split.
      + unfold first_events, whole. destruct b as [|i b]; [cbn; rewrite nil in H1; now injection H1 as <-|].
        cbn [List.length]. exists o1. split; [|reflexivity]. rewrite ranged_first by (rewrite ?app_length; cbn [List.length]; lia). cbn [fst snd].
        replace (S (List.length b)) with (List.length (i :: b) + 0) by (cbn; lia). rewrite firstn_app_2. cbn [firstn]. rewrite app_nil_r, H1. reflexivity.
      + right. exists it. split; [cbn; rewrite nth_error_app2 by lia; now rewrite Nat.sub_diag|]. eapply grows; eassumption.
  Qed.
  Lemma ends t : leave step source (view empty) = (t, None) <-> exists o, whole source = Ok o /\ t = view o.
  Proof.
    unfold leave, whole. destruct source as [items re]. cbn [fst snd]. pose proof (all items empty) as A.
    destruct (each items step (view empty)) as [t1 [[]|e1]].
    - cbn in A. destruct (run items empty) as [o1|e1]; [|discriminate]. cbn in A. injection A as ->. cbn [rbind]. destruct re; split.
      + discriminate. + intros (o & H & _). discriminate.
      + intros H. injection H as <-. eauto. + intros (o & H & ->). injection H as ->. reflexivity.
    - cbn in A. destruct (run items empty) as [o1|]; [discriminate|]. split; [discriminate|]. intros (o & H & _). discriminate.
  Qed.
  (** both, for a city and its runs with a range of events *)
  Lemma city_halts (city : result O) (range : nat -> result O) : city = whole source -> (forall k, range k = whole (ranged (0, Some k) source)) ->
    (forall t e, leave step source (view empty) = (t, Some e) -> city = Err e /\ left_by source (first_events view empty range) more t e) /\
    (forall t, leave step source (view empty) = (t, None) <-> exists o, city = Ok o /\ t = view o).
  Proof.
    intros -> R. split; [|apply ends]. intros t e L. destruct (halts t e L) as [H1 (k & t1 & F & H2)]. split; [exact H1|]. exists k, t1. split; [|exact H2].
    destruct k; [exact F|]. cbn [first_events] in *. destruct F as (o1 & F & ->). exists o1. split; [|reflexivity]. now rewrite R.
  Qed.
End Link.

Lemma grown_same {A} (key : A -> Z) n l : grown key n l l.
Proof. exists []. split; [symmetry; apply app_nil_r|]. intros r []. Qed.
Lemma grown_rows {A} (key : A -> Z) n l m : (forall r, In r m -> key r = n) -> grown key n l (l ++ m).
Proof. intros H. exists m. auto. Qed.
Lemma grown_more {A} (key : A -> Z) n l m k : (forall r, In r m -> key r = n) -> grown key n (l ++ m) k -> grown key n l k.
Proof. intros H (x & -> & Hx). exists (m ++ x). split; [symmetry; apply app_assoc|]. intros r Hr. apply in_app_or in Hr. destruct Hr; auto. Qed.
Lemma whole_eq {I O} (run : list I -> O -> result O) (empty : O) (source : list I * option pyexc) :
  (let (items, e) := source in rbind (run items empty) (fun o => match e with None => Ok o | Some e => Err e end)) = whole run empty source.
Proof. destruct source. reflexivity. Qed.
