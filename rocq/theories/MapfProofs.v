(** For C127 *)
From Coq Require Import String.
From Verif Require Import Base PsfModel CorrModel KmapModel ZemModel TevModel ZrunModel.
From Verif Require Import HaltBase HaltProofs HaltStop MapfModel MapfSpec.
Local Open Scope nat_scope.

Lemma uses_files files : uses files (fst (dst_from_files files)) (snd (dst_from_files files)).
Proof. induction files as [|[it| |e] files IH]; cbn [dst_from_files]; [constructor| |constructor; exact IH|constructor]. destruct (dst_from_files files) as [l e]. constructor. exact IH. Qed.
Lemma uses_fun files : forall i1 s1 i2 s2, uses files i1 s1 -> uses files i2 s2 -> i1 = i2 /\ s1 = s2.
Proof.
  induction files as [|f files IH]; intros i1 s1 i2 s2 H1 H2; inversion H1; subst; inversion H2; subst; auto;
    match goal with A : uses files ?a ?b, B : uses files ?c ?d |- _ => destruct (IH a b c d A B) as [E1 E2]; subst; auto end.
Qed.
Lemma uses_is files items stop : uses files items stop -> dst_from_files files = (items, stop).
Proof. intros H. destruct (uses_fun _ _ _ _ _ (uses_files files) H) as [<- <-]. now destruct (dst_from_files files). Qed.

Definition more_events (l : list (Z * (Z * Q))) (t : euf) : euf := {| eu_filters := eu_filters t; eu_runs := eu_runs t ++ map fst l; eu_events := eu_events t ++ map snd l; eu_psf := eu_psf t |}.
Lemma more_more l m t : more_events m (more_events l t) = more_events (l ++ m) t.
Proof. unfold more_events; cbn. now rewrite !map_app, !app_assoc. Qed.
Lemma more_nil t : more_events [] t = t.
Proof. destruct t; unfold more_events; cbn. now rewrite !app_nil_r. Qed.
Lemma write_events_is it t : write_events it t = (more_events (map (fun e => (ei_run it, e)) (ei_events it)) t, Ok tt).
Proof.
  unfold write_events. revert t. induction (ei_events it) as [|e l IH]; intros t; cbn [each map]; [now rewrite more_nil|].
  rewrite exec_bind. unfold put_run at 1, put_event at 1. rewrite bind_put. cbn [put exec]. rewrite IH. f_equal. cbn [eu_filters eu_runs eu_events eu_psf]. unfold more_events. cbn. now rewrite <- !app_assoc.
Qed.

Section Feed.
  Variable psfs : list hit -> result (list (list prow)).
  Lemma feed_ok items : forall acc t frames, rmap psfs (map ei_hits items) = Ok frames ->
    feed psfs items acc t = (more_events (events_of items) t, Ok (fold_left combine_psfs (concat frames) acc)).
  Proof.
    induction items as [|it items IH]; intros acc t frames; cbn [map rmap feed].
    - intros H. injection H as <-. cbn. now rewrite more_nil.
    - destruct (psfs (ei_hits it)) as [fr|] eqn:F; [|discriminate]. cbn [rbind]. destruct (rmap psfs (map ei_hits items)) as [frs|] eqn:R; [|discriminate]. cbn [rbind]. intros H. injection H as <-.
      rewrite (bind_ok _ _ _ _ _ (write_events_is it t)), bind_call. rewrite (IH _ _ _ eq_refl), more_more. cbn [concat]. now rewrite fold_left_app.
  Qed.
  Lemma feed_err items : forall acc t e, rmap psfs (map ei_hits items) = Err e ->
    exists before it after, items = before ++ it :: after /\ (forall b, In b before -> exists fr, psfs (ei_hits b) = Ok fr) /\ psfs (ei_hits it) = Err e /\
      feed psfs items acc t = (more_events (events_of (before ++ [it])) t, Err e).
  Proof.
    induction items as [|it items IH]; intros acc t e; cbn [map rmap feed]; [discriminate|].
    rewrite (bind_ok _ _ _ _ _ (write_events_is it t)), bind_call. destruct (psfs (ei_hits it)) as [fr|e1] eqn:F; cbn [rbind].
    - destruct (rmap psfs (map ei_hits items)) as [frs|e1] eqn:R; cbn [rbind]; [discriminate|]. intros H. injection H as <-.
      destruct (IH (fold_left combine_psfs fr acc) (more_events (map (fun e => (ei_run it, e)) (ei_events it)) t) _ eq_refl) as (b & i & a & E1 & E2 & E3 & E4).
      exists (it :: b), i, a. split; [now rewrite E1|]. split; [|split; [exact E3|]].
      + intros x [<-|X]; [eauto|auto].
      + rewrite E4, more_more. reflexivity.
    - intros H. injection H as <-. exists [], it, items. split; [reflexivity|]. split; [intros ? []|]. split; [exact F|]. cbn. now rewrite app_nil_r.
  Qed.

  (** between the beginning and the end of the events *)
  Definition between (l : list (Z * (Z * Q))) (t0 t : euf) : Prop :=
    eu_filters t = eu_filters t0 /\ eu_psf t = eu_psf t0 /\ exists n m, n <= m <= S n /\ m <= length l /\ eu_runs t = eu_runs t0 ++ map fst (firstn m l) /\ eu_events t = eu_events t0 ++ map snd (firstn n l).
  Lemma between_0 l t : between l t t.
  Proof. split; [reflexivity|]. split; [reflexivity|]. exists 0, 0. cbn. rewrite !app_nil_r. repeat split; lia. Qed.
  Lemma between_more l l' t0 t : between l t0 t -> between (l ++ l') t0 t.
  Proof.
    intros (F & P & n & m & H1 & H2 & H3 & H4). split; [exact F|]. split; [exact P|]. exists n, m. rewrite app_length, !firstn_app. replace (n - length l) with 0 by lia. replace (m - length l) with 0 by lia.
    cbn. rewrite !app_nil_r. repeat split; try assumption; lia.
  Qed.
  Lemma between_after l l' t0 t : between l' (more_events l t0) t -> between (l ++ l') t0 t.
  Proof.
    intros (F & P & n & m & H1 & H2 & H3 & H4). split; [exact F|]. split; [exact P|]. exists (length l + n), (length l + m).
    rewrite app_length, !firstn_app, (firstn_all2 (n := length l + n) l), (firstn_all2 (n := length l + m) l) by lia. replace (length l + n - length l) with n by lia. replace (length l + m - length l) with m by lia. rewrite !map_app, !app_assoc.
    repeat split; try assumption; lia.
  Qed.
  Lemma between_all l t : between l t (more_events l t).
  Proof. split; [reflexivity|]. split; [reflexivity|]. exists (length l), (length l). rewrite !firstn_all. repeat split; lia. Qed.
  Lemma write_visits it t u : In u (visited (write_events it) t) -> between (map (fun e => (ei_run it, e)) (ei_events it)) t u.
  Proof.
    unfold write_events. revert t. induction (ei_events it) as [|e l IH]; intros t; cbn [each map].
    - intros H. apply in_ret in H. subst. apply between_0.
    - intros H. apply in_bind in H. destruct H as [H|(t1 & [] & E & H)].
      + apply in_put in H. destruct H as [->|H]; [apply between_0|]. apply in_put1 in H.
        destruct H as [->| ->]; (split; [reflexivity|]); (split; [reflexivity|]).
        * exists 0, 1. cbn. rewrite app_nil_r. repeat split; lia.
        * exists 1, 1. cbn. repeat split; lia.
      + cbn in E. injection E as <-. change ((ei_run it, e) :: map (fun e => (ei_run it, e)) l) with ([(ei_run it, e)] ++ map (fun e => (ei_run it, e)) l). apply between_after. exact (IH _ H).
  Qed.
  Lemma feed_visits items : forall acc t u, In u (visited (feed psfs items acc) t) -> between (events_of items) t u.
  Proof.
    induction items as [|it items IH]; intros acc t u; cbn [feed].
    - intros H. apply in_ret in H. subst. apply between_0.
    - intros H. change (events_of (it :: items)) with (map (fun e => (ei_run it, e)) (ei_events it) ++ events_of items). apply in_bind in H. destruct H as [H|(t1 & [] & E & H)].
      + apply between_more. exact (write_visits _ _ _ H).
      + rewrite write_events_is in E. injection E as <-. apply between_after. apply in_call in H. destruct (psfs (ei_hits it)); [exact (IH _ _ _ H)|subst; apply between_0].
  Qed.
End Feed.

Lemma within_exec {T A} (d0 : T) (p : prog T A) : forall t, within (fun d => match d with Some t => t | None => d0 end) (fun t _ => Some t) p (Some t) = (Some (fst (p t)), snd (p t)).
Proof. induction p as [a|e|f p IH|k IH]; intros t; cbn [within exec]; [reflexivity|reflexivity|apply IH|apply IH]. Qed.
Lemma within_visits {T A} (d0 : T) (p : prog T A) : forall t u, In u (visited (within (fun d => match d with Some t => t | None => d0 end) (fun t _ => Some t) p) (Some t)) -> exists v, u = Some v /\ In v (visited p t).
Proof.
  induction p as [a|e|f p IH|k IH]; intros t u; cbn [within visited].
  - intros [<-|[]]. exists t. split; [reflexivity|now left].
  - intros [<-|[]]. exists t. split; [reflexivity|now left].
  - intros [<-|H]; [exists t; split; [reflexivity|now left]|]. destruct (IH _ _ H) as (v & -> & V). exists v. split; [reflexivity|now right].
  - intros H. exact (IH _ _ _ H).
Qed.
Lemma end_visited {T A} (p : prog T A) : forall t, In (fst (p t)) (visited p t).
Proof. induction p as [a|e|f p IH|k IH]; intros t; cbn [visited exec fst]; [now left|now left|right; apply IH|apply IH]. Qed.
