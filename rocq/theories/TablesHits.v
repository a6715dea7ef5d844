(** C53: hits read from a table *)
From Verif Require Import Base TablesModel TablesSpec.
Local Open Scope nat_scope.

Section Hits.
  Context {R : Type}.
  Variables (h_event : R -> Z) (h_time : option (R -> Q)) (is_NN : R -> bool).
  Notation time := (time_of R h_time). Notation add_row := (add_row R h_event h_time). Notation groupby := (groupby R h_event h_time).
  Notation same_key := (same_key R h_event h_time). Notation before_key := (before_key R h_event h_time).

  Definition klt (a b : Z * Q) : Prop := (fst a < fst b)%Z \/ (fst a = fst b /\ (snd a < snd b)%Q).
  Definition keq (a b : Z * Q) : Prop := fst a = fst b /\ (snd a == snd b)%Q.
  Definition key (r : R) : Z * Q := (h_event r, time r).
  Lemma same_iff r k : same_key r k = true <-> keq (key r) k.
  Proof. unfold TablesModel.same_key, keq, key. cbn [fst snd]. rewrite andb_true_iff, Z.eqb_eq, Qeqb_eq. reflexivity. Qed.
  Lemma before_iff r k : before_key r k = true <-> klt (key r) k.
  Proof. unfold TablesModel.before_key, klt, key. cbn [fst snd]. rewrite orb_true_iff, andb_true_iff, Z.eqb_eq, Z.ltb_lt, Qltb_lt. reflexivity. Qed.
  Lemma klt_trans a b c : klt a b -> klt b c -> klt a c.
  Proof. unfold klt. intros [H|[H1 H2]] [K|[K1 K2]]; [left; lia|left; lia|left; lia|right; split; [congruence|lra]]. Qed.
  Lemma keq_klt a b c : keq a b -> klt b c -> klt a c.
  Proof. unfold klt, keq. intros [H1 H2] [K|[K1 K2]]; [left; lia|right; split; [congruence|lra]]. Qed.
  Lemma klt_irrefl a b : klt a b -> ~ keq a b.
  Proof. unfold klt, keq. intros [H|[H1 H2]] [K1 K2]; [lia|lra]. Qed.
  Lemma klt_total a b : ~ keq a b -> ~ klt a b -> klt b a.
  Proof.
    unfold klt, keq. intros H1 H2. destruct (Z.lt_trichotomy (fst a) (fst b)) as [H|[H|H]]; [exfalso; apply H2; now left| |left; lia].
    right. split; [congruence|]. destruct (Qlt_le_dec (snd b) (snd a)); [assumption|]. exfalso. apply H1. split; [assumption|]. destruct (Qlt_le_dec (snd a) (snd b)); [exfalso; apply H2; now right|lra].
  Qed.
  Lemma keq_sym a b : keq a b -> keq b a. Proof. unfold keq. intros [H1 H2]. split; [congruence|lra]. Qed.
  Lemma keq_trans a b c : keq a b -> keq b c -> keq a c. Proof. unfold keq. intros [H1 H2] [K1 K2]. split; [congruence|lra]. Qed.

  Definition ordered (gs : list ((Z * Q) * list R)) : Prop := StronglySorted (fun a b => klt (fst a) (fst b)) gs.
  Lemma add_row_keys r gs x : In x (add_row r gs) -> fst x = key r \/ exists y, In y gs /\ fst x = fst y.
  Proof.
    induction gs as [|[k l] gs IH]; cbn; [intros [<-|[]]; now left|]. destruct (same_key r k); [intros [<-|H]; right; [exists (k, l); auto|exists x; auto]|].
    destruct (before_key r k); [intros [<-|[<-|H]]; [now left|right; exists (k, l); auto|right; exists x; auto]|]. intros [<-|H]; [right; exists (k, l); auto|]. destruct (IH H) as [E|(y & Hy & E)]; [now left|right; exists y; auto].
  Qed.
  Lemma add_row_ordered r gs : ordered gs -> ordered (add_row r gs).
  Proof.
    unfold ordered. induction 1 as [|[k l] gs H IH Hk]; cbn; [repeat constructor|]. destruct (same_key r k) eqn:E1; [constructor; assumption|].
    destruct (before_key r k) eqn:E2.
    - apply before_iff in E2. constructor; [constructor; assumption|]. constructor; [exact E2|]. eapply Forall_impl; [|exact Hk]. intros a Ha. cbn [fst] in *. eapply klt_trans; eassumption.
    - constructor; [assumption|]. apply Forall_forall. intros x Hx. cbn [fst]. destruct (add_row_keys r gs x Hx) as [->|(y & Hy & ->)].
      + apply klt_total; [rewrite <- same_iff; congruence|rewrite <- before_iff; congruence].
      + rewrite Forall_forall in Hk. now apply (Hk y).
  Qed.

  (** the rows filed under a key *)
  Definition keqb (a b : Z * Q) : bool := (fst a =? fst b)%Z && Qeqb (snd a) (snd b).
  Lemma keqb_iff a b : keqb a b = true <-> keq a b.
  Proof. unfold keqb, keq. now rewrite andb_true_iff, Z.eqb_eq, Qeqb_eq. Qed.
  Definition content (gs : list ((Z * Q) * list R)) (k : Z * Q) : list R := flat_map (fun g => if keqb (fst g) k then snd g else []) gs.
  Lemma content_none gs k : (forall g, In g gs -> ~ keq (fst g) k) -> content gs k = [].
  Proof. intros H. unfold content. induction gs as [|g gs IH]; [reflexivity|]. cbn. destruct (keqb (fst g) k) eqn:E; [exfalso; apply keqb_iff in E; exact (H g (or_introl eq_refl) E)|]. apply IH. intros; apply H; now right. Qed.
  Lemma content_add r gs k : ordered gs -> content (add_row r gs) k = content gs k ++ (if same_key r k then [r] else []).
  Proof.
    assert (Hsame : forall k', keqb (key r) k' = same_key r k') by (intros k'; apply eq_true_iff_eq; rewrite keqb_iff; symmetry; apply same_iff).
    unfold ordered. induction 1 as [|[k0 l] gs H IH Hk].
    - cbn. fold (key r). rewrite Hsame, app_nil_r. reflexivity.
    - cbn [TablesModel.add_row]. destruct (same_key r k0) eqn:E1.
      + cbn. assert (E : keqb k0 k = same_key r k).
        { apply same_iff in E1. apply eq_true_iff_eq. rewrite keqb_iff, same_iff. split; intros K; [eapply keq_trans; eassumption|eapply keq_trans; [apply keq_sym|]; eassumption]. }
        fold (content gs k). rewrite E. destruct (same_key r k) eqn:Er; [|now rewrite app_nil_r].
        assert (content gs k = []) as -> by (apply content_none; intros g Hg K; rewrite Forall_forall in Hk; specialize (Hk g Hg); cbn in Hk; apply (klt_irrefl _ _ Hk); apply same_iff in Er, E1; eapply keq_trans; [apply keq_sym; exact E1|]; eapply keq_trans; [exact Er|apply keq_sym, K]).
        rewrite !app_nil_r. reflexivity.
      + destruct (before_key r k0) eqn:E2.
        * apply before_iff in E2. cbn. fold (key r) (content gs k). rewrite Hsame. destruct (same_key r k) eqn:Er; [|now rewrite app_nil_r].
          assert (Z1 : keqb k0 k = false).
          { destruct (keqb k0 k) eqn:K; [|reflexivity]. exfalso. apply keqb_iff in K. apply same_iff in Er. apply (klt_irrefl _ _ E2). eapply keq_trans; [exact Er|apply keq_sym, K]. }
          rewrite Z1. cbn. rewrite (content_none gs k); [reflexivity|]. intros g Hg K. rewrite Forall_forall in Hk. specialize (Hk g Hg). cbn in Hk. apply same_iff in Er.
          apply (klt_irrefl _ _ (klt_trans _ _ _ E2 Hk)). eapply keq_trans; [exact Er|apply keq_sym, K].
        * cbn. fold (content (add_row r gs) k) (content gs k). rewrite IH, app_assoc. reflexivity.
  Qed.
  Lemma groupby_ordered dst : ordered (groupby dst).
  Proof. unfold TablesModel.groupby. assert (H : ordered []) by constructor. revert H. generalize (@nil ((Z * Q) * list R)). induction dst as [|r dst IH]; intros gs H; [exact H|]. cbn. apply IH. now apply add_row_ordered. Qed.
  Lemma groupby_content dst k : content (groupby dst) k = filter (fun r => same_key r k) dst.
  Proof.
    unfold TablesModel.groupby. assert (H : forall gs, ordered gs -> content (fold_left (fun gs r => add_row r gs) dst gs) k = content gs k ++ filter (fun r => same_key r k) dst).
    { induction dst as [|r dst IH]; intros gs H; [cbn [fold_left filter]; now rewrite app_nil_r|]. cbn [fold_left filter]. rewrite IH by now apply add_row_ordered. rewrite content_add by assumption. rewrite <- app_assoc. now destruct (same_key r k). }
    rewrite H; [reflexivity|constructor].
  Qed.
  Lemma content_in gs k l : ordered gs -> In (k, l) gs -> content gs k = l.
  Proof.
    unfold ordered. induction 1 as [|[k0 l0] gs H IH Hk]; [easy|]. intros [E|Hin].
    - injection E as -> ->. cbn. assert (keqb k k = true) as -> by (apply keqb_iff; split; [reflexivity|lra]). fold (content gs k). rewrite content_none; [apply app_nil_r|].
      intros g Hg K. rewrite Forall_forall in Hk. specialize (Hk g Hg). cbn in Hk. apply (klt_irrefl _ _ Hk). now apply keq_sym.
    - cbn. fold (content gs k). destruct (keqb k0 k) eqn:E; [|cbn; auto]. exfalso. apply keqb_iff in E. rewrite Forall_forall in Hk. specialize (Hk _ Hin). cbn in Hk. exact (klt_irrefl _ _ Hk E).
  Qed.
  Lemma group_is dst k l : In (k, l) (groupby dst) -> l = filter (fun r => same_key r k) dst.
  Proof. intros H. rewrite <- groupby_content. symmetry. apply content_in; [apply groupby_ordered|assumption]. Qed.
  Lemma group_exists dst r : In r dst -> exists k l, In (k, l) (groupby dst) /\ same_key r k = true.
  Proof.
    intros H. assert (K : In r (content (groupby dst) (key r))) by (rewrite groupby_content; apply filter_In; split; [assumption|apply same_iff; split; [reflexivity|cbn; lra]]).
    unfold content in K. apply in_flat_map in K. destruct K as ([k l] & Hin & K). cbn in K. destruct (keqb k (key r)) eqn:E; [|easy]. exists k, l. split; [assumption|]. apply same_iff. apply keqb_iff in E. now apply keq_sym.
  Qed.
  Lemma group_nonempty dst k l : In (k, l) (groupby dst) -> l <> [].
  Proof.
    unfold TablesModel.groupby. assert (G : forall gs, (forall g, In g gs -> snd g <> []) -> forall g, In g (fold_left (fun gs r => add_row r gs) dst gs) -> snd g <> []).
    { induction dst as [|r dst IH]; intros gs H; [exact H|]. cbn. apply IH. clear -H. induction gs as [|[k0 l0] gs IH]; cbn; [intros g [<-|[]]; discriminate|].
      destruct (same_key r k0); [intros g [<-|Hg]; [cbn; destruct l0; discriminate|apply H; now right]|]. destruct (before_key r k0); [intros g [<-|Hg]; [discriminate|now apply H]|].
      intros g [<-|Hg]; [apply H; now left|apply IH; [intros; apply H; now right|assumption]]. }
    intros H. now apply (G [] ltac:(easy) (k, l)).
  Qed.

  (** one step of the dictionary *)
  Notation collect skip := (fun d '((ev, t), l) =>
      match filter (fun r => negb (skip && is_NN r)) l with [] => d | hits => set_event R d ev (t, hits) end).
  Lemma set_event_new d ev c : ~ In ev (map fst d) -> set_event R d ev c = d ++ [(ev, c)].
  Proof. induction d as [|[e c'] d IH]; cbn; [reflexivity|]. intros H. destruct (Z.eqb_spec e ev); [exfalso; apply H; now left|]. f_equal. apply IH. tauto. Qed.

  Definition kept (skip : bool) (r : R) : bool := negb (skip && is_NN r).
  (** the collection of an event when it has a single time *)
  Lemma collect_one skip gs d : NoDup (map (fun g => fst (fst g)) gs) -> (forall g, In g gs -> ~ In (fst (fst g)) (map fst d)) -> NoDup (map fst d) ->
    NoDup (map fst (fold_left (collect skip) gs d)) /\
    forall ev t l, In (ev, (t, l)) (fold_left (collect skip) gs d) <->
      In (ev, (t, l)) d \/ exists l0, In ((ev, t), l0) gs /\ l = filter (kept skip) l0 /\ l <> [].
  Proof.
    revert d. induction gs as [|[[ev0 t0] l0] gs IH]; intros d N Hd Nd; cbn [fold_left].
    - split; [assumption|]. intros ev t l. split; [now left|intros [H|(l0 & [] & _)]; exact H].
    - cbn in N. inversion N as [|? ? N1 N2]; subst. set (d' := match filter _ l0 with [] => d | hits => set_event R d ev0 (t0, hits) end).
      assert (E : d' = d ++ match filter (kept skip) l0 with [] => [] | hits => [(ev0, (t0, hits))] end).
      { unfold d'. change (fun r => negb (skip && is_NN r)) with (kept skip). destruct (filter (kept skip) l0); [now rewrite app_nil_r|]. apply set_event_new. exact (Hd _ (or_introl eq_refl)). }
      assert (Hkeys : forall ev, In ev (map fst d') -> In ev (map fst d) \/ ev = ev0).
      { rewrite E, map_app. intros ev H. apply in_app_iff in H. destruct H as [H|H]; [now left|]. destruct (filter (kept skip) l0); [destruct H|destruct H as [<-|[]]; now right]. }
      destruct (IH d') as [I1 I2].
      + assumption.
      + intros g Hg K. destruct (Hkeys _ K) as [K1|K1]; [apply (Hd g); [now right|assumption]|]. apply N1. rewrite <- K1. apply in_map_iff. exists g. split; [reflexivity|assumption].
      + rewrite E, map_app. destruct (filter (kept skip) l0); [cbn; now rewrite app_nil_r|]. cbn. apply NoDup_rev in Nd. apply NoDup_rev in Nd. rewrite rev_involutive in Nd.
        apply Permutation_NoDup with (ev0 :: map fst d); [apply Permutation_cons_append|]. constructor; [exact (Hd _ (or_introl eq_refl))|assumption].
      + split; [exact I1|]. intros ev t l. rewrite I2, E, in_app_iff. split.
        * intros [[H|H]|(l1 & H1 & H2)]; [now left| |right; exists l1; split; [now right|assumption]]. right. exists l0. destruct (filter (kept skip) l0) eqn:Ef; [destruct H|]. destruct H as [H|[]]. injection H as H1 H2 H3. subst ev t l. split; [now left|]. split; [congruence|intros H4; congruence].
        * intros [H|(l1 & [H1|H1] & H2 & H3)]; [left; now left| |right; eauto]. injection H1 as -> -> ->. left. right. match goal with |- In _ (match ?x with _ => _ end) => assert (Ex : x = l) by (symmetry; exact H2); rewrite Ex end. destruct l; [easy|now left].
  Qed.
End Hits.

(** one collection per event, holding exactly the rows of the event in order, when the rows of an event have one time *)
Theorem C53_hits_by_event {R} (h_event : R -> Z) h_time is_NN dst skip :
  (forall r s, In r dst -> In s dst -> h_event r = h_event s -> time_of R h_time r == time_of R h_time s)%Q ->
  let d := hits_from_df R h_event h_time is_NN dst skip in
  let hits ev := filter (fun r => (h_event r =? ev)%Z && negb (skip && is_NN r)) dst in
  NoDup (map fst d) /\
  (forall ev, In ev (map fst d) <-> hits ev <> []) /\
  (forall ev t l, In (ev, (t, l)) d -> l = hits ev /\ forall r, In r l -> (time_of R h_time r == t)%Q).
Proof.
  intros H d hits. assert (Hdist : NoDup (map (fun g => fst (fst g)) (groupby R h_event h_time dst))).
  { pose proof (groupby_ordered h_event h_time dst) as S. unfold ordered in S.
    assert (G : forall g g', In g (groupby R h_event h_time dst) -> In g' (groupby R h_event h_time dst) -> fst (fst g) = fst (fst g') -> keq (fst g) (fst g')).
    { intros [k l] [k' l'] Hg Hg' E. cbn in *. pose proof (group_is _ _ dst k l Hg) as El. pose proof (group_is _ _ dst k' l' Hg') as El'. pose proof (group_nonempty _ _ dst k l Hg) as Nl. pose proof (group_nonempty _ _ dst k' l' Hg') as Nl'.
      destruct l as [|r l]; [easy|]. destruct l' as [|r' l']; [easy|].
      assert (Hr : In r (r :: l)) by now left. assert (Hr' : In r' (r' :: l')) by now left. rewrite El in Hr. rewrite El' in Hr'. apply filter_In in Hr, Hr'. destruct Hr as [Hr1 Hr2], Hr' as [Hr1' Hr2'].
      apply same_iff in Hr2, Hr2'. destruct Hr2 as [A1 A2], Hr2' as [B1 B2]. cbn [key fst snd] in *. split; [assumption|]. pose proof (H r r' Hr1 Hr1' ltac:(congruence)). lra. }
    revert S G. generalize (groupby R h_event h_time dst). induction l as [|g gs IH]; intros S G; [constructor|]. inversion S as [|? ? S1 S2]; subst. cbn. constructor; [|apply IH; [assumption|intros; apply G; auto; now right]].
    intros K. apply in_map_iff in K. destruct K as (g' & E & K). rewrite Forall_forall in S2. apply (klt_irrefl _ _ (S2 g' K)). apply G; [now left|now right|congruence]. }
  destruct (collect_one (R := R) is_NN skip (groupby R h_event h_time dst) [] Hdist) as [C1 C2]; [easy|constructor|].
  assert (Hone : forall ev t l0, In ((ev, t), l0) (groupby R h_event h_time dst) -> filter (kept is_NN skip) l0 = hits ev).
  { intros ev t l0 Hg. pose proof (group_is _ _ dst _ _ Hg) as El. pose proof (group_nonempty _ _ dst _ _ Hg) as Nl.
    assert (Ht : forall r, In r dst -> h_event r = ev -> (time_of R h_time r == t)%Q).
    { destruct l0 as [|r0 l0]; [easy|]. assert (Hr0 : In r0 (r0 :: l0)) by now left. rewrite El in Hr0. apply filter_In in Hr0. destruct Hr0 as [Hr0 K]. apply same_iff in K. destruct K as [K1 K2]. cbn in K1, K2.
      intros r Hr E. pose proof (H r r0 Hr Hr0 ltac:(congruence)). lra. }
    rewrite El. unfold hits, kept. clear -Ht. induction dst as [|r l IH]; [reflexivity|]. cbn. rewrite <- IH by (intros ? ? ?; apply Ht; [now right|assumption]).
    unfold same_key at 1. cbn [fst snd]. destruct (Z.eqb_spec (h_event r) ev) as [E|E]; [|reflexivity]. assert (Qeqb (time_of R h_time r) t = true) as -> by (apply Qeqb_eq, Ht; [now left|assumption]). cbn. now destruct (negb _). }
  split; [exact C1|]. assert (C3 : forall ev t l, In (ev, (t, l)) d -> l = hits ev /\ forall r, In r l -> (time_of R h_time r == t)%Q).
  { intros ev t l Hin. apply C2 in Hin. destruct Hin as [[]|(l0 & Hg & El & Nl)]. rewrite El. split; [now apply (Hone ev t)|]. intros r Hr. apply filter_In in Hr. destruct Hr as [Hr _].
    rewrite (group_is _ _ dst _ _ Hg) in Hr. apply filter_In in Hr. destruct Hr as [_ Hr]. apply same_iff in Hr. apply Hr. }
  split; [|exact C3]. intros ev. split.
  - intros K. apply in_map_iff in K. destruct K as ([e [t l]] & <- & K). cbn [fst]. destruct (C3 e t l K) as [E _]. rewrite <- E. apply C2 in K. destruct K as [[]|(l0 & _ & _ & K)]. exact K.
  - intros K. destruct (hits ev) as [|r rs] eqn:E; [easy|]. assert (Hr : In r (hits ev)) by (rewrite E; now left). apply filter_In in Hr. destruct Hr as [Hr1 Hr2]. apply andb_true_iff in Hr2. destruct Hr2 as [Hr2 _]. apply Z.eqb_eq in Hr2.
    destruct (group_exists h_event h_time dst r Hr1) as ([ev' t] & l0 & Hg & Hs). apply same_iff in Hs. destruct Hs as [Hs _]. cbn in Hs. rewrite <- Hs, Hr2 in Hg.
    apply in_map_iff. exists (ev, (t, filter (kept is_NN skip) l0)). split; [reflexivity|]. apply C2. right. exists l0. split; [exact Hg|]. split; [reflexivity|]. rewrite (Hone ev t l0 Hg), E. discriminate.
Qed.
Print Assumptions C53_hits_by_event.

(** rows are (event, time, NN?, number) *)
Definition ex_row : Type := (Z * Q * bool * nat).
Definition ex_hits := hits_from_df ex_row (fun r => fst (fst (fst r))) (Some (fun r => snd (fst (fst r)))) (fun r => snd (fst r)).
Example C53_example : ex_hits [(7%Z, 1%Q, false, 0); (3%Z, 2%Q, false, 1); (7%Z, 1%Q, true, 2); (7%Z, 1%Q, false, 3); (4%Z, 1%Q, true, 4)] true =
  [(3%Z, (2%Q, [(3%Z, 2%Q, false, 1)])); (7%Z, (1%Q, [(7%Z, 1%Q, false, 0); (7%Z, 1%Q, false, 3)]))].
Proof. vm_compute. reflexivity. Qed.
(** with two times only the hits of the last one are kept *)
Theorem C53_two_times_refuted : exists dst ev t l r, In (ev, (t, l)) (ex_hits dst false) /\ In r dst /\ fst (fst (fst r)) = ev /\ ~ In r l.
Proof.
  exists [(7%Z, 1%Q, false, 0); (7%Z, 2%Q, false, 1)], 7%Z, 2%Q, [(7%Z, 2%Q, false, 1)], (7%Z, 1%Q, false, 0). split; [vm_compute; now left|]. split; [now left|]. split; [reflexivity|]. intros [E|[]]. discriminate.
Qed.
Print Assumptions C53_two_times_refuted.
