(** Proofs about tables *)
From Verif Require Import Base PeaksProofs TablesModel TablesSpec.
Local Open Scope nat_scope.

Lemma mem_in c l : mem c l = true <-> In c l.
Proof. unfold mem. rewrite existsb_exists. split; [intros (x & H & E); apply Nat.eqb_eq in E; now subst|intros H; exists c; split; [assumption|apply Nat.eqb_refl]]. Qed.
Lemma same_set_spec a b : same_set a b = true <-> forall c, In c a <-> In c b.
Proof.
  unfold same_set. rewrite andb_true_iff, !forallb_forall. split.
  - intros [H1 H2] c. split; intros H; [now apply mem_in, H1|now apply mem_in, H2].
  - intros H. split; intros c Hc; apply mem_in, H, Hc.
Qed.

Section Frames.
  Context {V T : Type}.
  Variables (is_object : T -> bool) (string_col : T) (can_cast : T -> T -> bool) (astype : T -> V -> result V).
  Notation frame := (frame V T).
  Implicit Types (f : frame) (cols : list (nat * T)) (row : list V).

  Lemma type_of_in cols c (t : T) : NoDup (map fst cols) -> (type_of cols c = Some t <-> In (c, t) cols).
  Proof.
    induction cols as [|[c' t'] cols IH]; cbn; [easy|]. intros H. inversion H as [|? ? N1 N2]; subst. destruct (Nat.eqb_spec c' c) as [->|E].
    - split; [intros K; injection K as ->; now left|intros [K|K]; [now injection K as ->|]]. exfalso. apply N1. change c with (fst (c, t)). now apply in_map.
    - rewrite (IH N2). split; [now right|intros [K|K]; [injection K as -> ->; easy|assumption]].
  Qed.

  Lemma castability f cols : NoDup (map fst cols) -> frame_ok f ->
    check_castability is_object can_cast f cols = Ok tt <-> same_columns f cols /\ castable is_object can_cast f cols.
  Proof.
    intros N [Nf _]. unfold check_castability, same_columns. match goal with |- context [same_set ?a ?b] => destruct (same_set a b) eqn:E end.
    - pose proof (proj1 (same_set_spec _ _) E) as S. split.
      + intros F0. destruct (forallb _ (f_cols f)) eqn:F in F0; [clear F0|discriminate F0]. split; [exact S|]. rewrite forallb_forall in F. intros c t t' H H'. specialize (F _ H). cbn beta iota in F.
        apply orb_true_iff in F. destruct F as [F|F]; [now left|right]. apply (type_of_in cols c t' N) in H'. now rewrite H' in F.
      + intros [_ H]. assert (F : forallb (fun '(c, t) => is_object t || match type_of cols c with Some t' => can_cast t t' | None => false end) (f_cols f) = true); [|now rewrite F].
        apply forallb_forall. intros [c t] Hc. assert (In c (map fst cols)) as K by (apply S; unfold names; change c with (fst (c, t)); now apply in_map).
        apply in_map_iff in K. destruct K as ([c' t'] & K1 & K2). cbn in K1. subst c'. pose proof (H c t t' Hc K2) as Hct. apply (type_of_in cols c t' N) in K2. rewrite K2. apply orb_true_iff. exact Hct.
    - split; [discriminate|]. intros [S _]. exfalso. exact (eq_true_false_abs _ (proj2 (same_set_spec _ _) S) E).
  Qed.
  Lemma castability_err f cols : check_castability is_object can_cast f cols <> Ok tt -> check_castability is_object can_cast f cols = Err TableMismatch.
  Proof. unfold check_castability. destruct (same_set _ _); [|reflexivity]. destruct (forallb _ _); [easy|reflexivity]. Qed.

  Lemma field_cell cols row c v : NoDup (map fst cols) -> (field cols row c = Ok v <-> cell cols row c v).
  Proof.
    revert row. induction cols as [|[c' t'] cols IH]; intros row N; cbn.
    - split; [discriminate|]. intros (i & H & _). destruct i; discriminate.
    - inversion N as [|? ? N1 N2]; subst. destruct row as [|w row].
      + split; [discriminate|]. intros (i & _ & H). destruct i; discriminate.
      + destruct (Nat.eqb_spec c' c) as [->|E].
        * split; [intros K; injection K as ->; exists 0; split; reflexivity|]. intros ([|i] & H1 & H2); cbn in *; [congruence|]. exfalso. apply N1. eapply nth_error_In, H1.
        * rewrite (IH row N2). split; [intros (i & H); exists (S i); exact H|]. intros ([|i] & H1 & H2); cbn in *; [congruence|exists i; split; assumption].
  Qed.

  Lemma convert_stored f cols row s : NoDup (names f) -> NoDup (map fst cols) -> convert_row astype f cols row = Ok s -> stored_row astype f cols row s.
  Proof.
    intros Nf N H. unfold convert_row in H.
    assert (L : length s = length cols).
    { clear N. revert s H. induction cols as [|[c t] cols IH]; intros s H; cbn in H; [now injection H as <-|]. destruct (rbind _ _); [|discriminate]. destruct (rmap _ cols); [|discriminate]. injection H as <-. cbn. f_equal. now apply IH. }
    split; [assumption|]. intros c t w Hin. revert s L H. induction cols as [|[c' t'] cols IH]; intros s L H; [easy|].
    cbn in H. inversion N as [|? ? N1 N2]; subst. destruct (field (f_cols f) row c') as [v'|] eqn:E; cbn [rbind] in H; [|discriminate]. destruct (astype t' v') as [w'|] eqn:Ea; [|discriminate].
    destruct (rmap _ cols) as [ws|] eqn:Ew; [|discriminate]. injection H as <-. apply (field_cell _ _ _ _ Nf) in E. destruct Hin as [K|K].
    - injection K as -> ->. split.
      + intros ([|i] & H1 & H2); cbn in *; [injection H2 as <-; eauto|]. exfalso. apply N1. eapply nth_error_In, H1.
      + intros (v & Hv & Ha). exists 0. split; [reflexivity|]. cbn. apply (field_cell _ _ _ _ Nf) in E, Hv. congruence.
    - assert (c <> c') by (intros ->; apply N1; change c' with (fst (c', t)); now apply in_map).
      rewrite <- (IH N2 K ws ltac:(cbn in L; lia) eq_refl). split.
      + intros ([|i] & H1 & H2); cbn in *; [congruence|exists i; split; assumption].
      + intros (i & H1 & H2). exists (S i). split; assumption.
  Qed.

  Lemma put_same (h : nat -> option frame) k t : put h k t k = Some t.
  Proof. unfold put. now rewrite Nat.eqb_refl. Qed.
  Lemma put_other (h : nat -> option frame) k t k' : k' <> k -> put h k t k' = h k'.
  Proof. unfold put. intros H. apply Nat.eqb_neq in H. now rewrite H. Qed.

  Definition target (h : nat -> option frame) k f : frame := match h k with Some t => t | None => {| f_cols := make_tabledef is_object string_col (f_cols f); f_rows := [] |} end.

  Lemma tabledef_names cols : map fst (make_tabledef is_object string_col cols) = map fst cols.
  Proof. unfold make_tabledef. rewrite map_map. apply map_ext. now intros [c t]. Qed.

  Lemma write_one h f k index h' : frame_ok f -> NoDup (names (target h k f)) -> df_writer is_object string_col can_cast astype h f k index = (h', Ok tt) ->
    exists rows, h' k = Some {| f_cols := f_cols (target h k f); f_rows := f_rows (target h k f) ++ rows |} /\
      Forall2 (stored_row astype f (f_cols (target h k f))) (f_rows f) rows /\ (forall k', k' <> k -> h' k' = h k').
  Proof.
    intros Hf N H. unfold df_writer in H. fold (target h k f) in H. set (t := target h k f) in *.
    assert (K : exists rows, Forall2 (stored_row astype f (f_cols t)) (f_rows f) rows /\
      h' = put (put h k t) k {| f_cols := f_cols t; f_rows := f_rows t ++ rows |}).
    { destruct (f_rows f) as [|r0 rs] eqn:E.
      - exists []. split; [constructor|]. injection H as <- _. rewrite app_nil_r. now destruct t.
      - destruct (check_castability _ _ _ _) as [[]|e]; cbn [rbind] in H; [|discriminate].
        destruct (rmap _ (r0 :: rs)) as [rows|] eqn:Er; cbn [rbind] in H; [|discriminate]. injection H as <- _. exists rows. split; [|reflexivity].
        assert (G : forall l rows, rmap (convert_row astype f (f_cols t)) l = Ok rows -> Forall2 (stored_row astype f (f_cols t)) l rows).
        { induction l as [|r l IH]; intros rw Hr; cbn in Hr; [injection Hr as <-; constructor|]. destruct (convert_row astype f (f_cols t) r) eqn:Ec; [|discriminate]. destruct (rmap _ l); [|discriminate]. injection Hr as <-. constructor; [apply convert_stored; [apply Hf|exact N|exact Ec]|now apply IH]. }
        now apply G. }
    destruct K as (rows & K1 & ->). exists rows. rewrite put_same. split; [reflexivity|]. split; [assumption|]. intros k' Hk. now rewrite !put_other by assumption.
  Qed.

  Lemma write_mismatch h f k index t : h k = Some t -> NoDup (names t) -> frame_ok f -> f_rows f <> [] ->
    ~ (same_columns f (f_cols t) /\ castable is_object can_cast f (f_cols t)) ->
    exists h', df_writer is_object string_col can_cast astype h f k index = (h', Err TableMismatch) /\ forall k', h' k' = h k'.
  Proof.
    intros Ht N Hf He H. unfold df_writer. rewrite Ht. destruct (f_rows f) as [|r rs]; [easy|]. rewrite castability_err by (rewrite castability by assumption; assumption). cbn [rbind].
    eexists. split; [reflexivity|]. intros k'. unfold put. destruct (Nat.eqb_spec k' k) as [->|]; congruence.
  Qed.

  Lemma write_accepted h f k index : frame_ok f -> NoDup (names (target h k f)) ->
    same_columns f (f_cols (target h k f)) -> castable is_object can_cast f (f_cols (target h k f)) ->
    (forall row c t v, In row (f_rows f) -> In (c, t) (f_cols (target h k f)) -> cell (f_cols f) row c v -> exists w, astype t v = Ok w) ->
    (forall l c, index = Some l -> In c l -> In c (names f)) ->
    exists h', df_writer is_object string_col can_cast astype h f k index = (h', Ok tt).
  Proof.
    intros Hf N S C A I. unfold df_writer. fold (target h k f). set (t := target h k f) in *.
    assert (Hi : match index with None => Ok tt | Some l => if forallb (fun c => mem c (names f)) l then Ok tt else Err KeyError end = Ok tt).
    { destruct index as [l|]; [|reflexivity]. assert (E : forallb (fun c => mem c (names f)) l = true); [|now rewrite E]. apply forallb_forall. intros c Hc. apply mem_in. now apply (I l). }
    destruct (f_rows f) as [|r0 rs] eqn:E; [rewrite Hi; eauto|]. rewrite <- E in *.
    rewrite (proj2 (castability f (f_cols t) N Hf)) by (split; assumption). cbn [rbind].
    assert (G : forall l, (forall row, In row l -> In row (f_rows f)) -> exists rows, rmap (convert_row astype f (f_cols t)) l = Ok rows).
    { induction l as [|r l IH]; intros Hl; [exists []; reflexivity|]. destruct IH as (rows & Er); [intros; apply Hl; now right|]. cbn.
      assert (Hr : In r (f_rows f)) by (apply Hl; now left).
      assert (Hc : exists s, convert_row astype f (f_cols t) r = Ok s); [|destruct Hc as (s & ->); rewrite Er; eauto].
      unfold convert_row. assert (Hcols : forall c ty, In (c, ty) (f_cols t) -> exists w, rbind (field (f_cols f) r c) (astype ty) = Ok w).
      { intros c ty Hin. assert (Hn : In c (names f)) by (apply S; change c with (fst (c, ty)); now apply in_map).
        apply In_nth_error in Hn. destruct Hn as (i & Hi2). assert (Hlen : i < length r).
        { destruct Hf as [_ Hf]. rewrite (Hf r Hr). unfold names in Hi2. rewrite <- (map_length fst). apply nth_error_Some. congruence. }
        apply nth_error_Some in Hlen. destruct (nth_error r i) as [v|] eqn:Ev; [|easy].
        assert (Hcell : cell (f_cols f) r c v) by (exists i; split; assumption). destruct (A r c ty v Hr Hin Hcell) as (w & Hw). exists w.
        destruct Hf as [Hf _]. apply (field_cell _ _ _ _ Hf) in Hcell. rewrite Hcell. exact Hw. }
      clear -Hcols. induction (f_cols t) as [|[c ty] cols IH]; [exists []; reflexivity|]. destruct (Hcols c ty (or_introl eq_refl)) as (w & Ew). destruct IH as (s & Es); [intros; apply Hcols; now right|]. cbn. rewrite Ew, Es. eauto. }
    destruct (G (f_rows f)) as (rows & Er); [auto|]. rewrite Er. cbn [rbind]. rewrite Hi. eauto.
  Qed.

  Lemma target_none h k f : h k = None -> target h k f = {| f_cols := make_tabledef is_object string_col (f_cols f); f_rows := [] |}.
  Proof. unfold target. now intros ->. Qed.
  Lemma target_some h k f t : h k = Some t -> target h k f = t.
  Proof. unfold target. now intros ->. Qed.

  Lemma write_more h fs k index h' t : h k = Some t -> NoDup (names t) -> (forall f, In f fs -> frame_ok f) ->
    write_frames is_object string_col can_cast astype h fs k index = (h', Ok tt) ->
    exists rows, h' k = Some {| f_cols := f_cols t; f_rows := f_rows t ++ concat rows |} /\
      Forall2 (fun f rs => Forall2 (stored_row astype f (f_cols t)) (f_rows f) rs) fs rows /\ (forall k', k' <> k -> h' k' = h k').
  Proof.
    revert h t. induction fs as [|f fs IH]; intros h t Ht N Hf H; cbn in H.
    - injection H as <-. exists []. cbn. rewrite app_nil_r. split; [rewrite Ht; now destruct t|]. split; [constructor|reflexivity].
    - destruct (df_writer _ _ _ _ h f k index) as [h1 r] eqn:E. destruct r as [[]|e]; [|discriminate].
      apply write_one in E; [|apply Hf; now left|now rewrite (target_some h k f t)]. rewrite (target_some h k f t Ht) in E. destruct E as (rows1 & E1 & E2 & E3).
      apply IH with (t := {| f_cols := f_cols t; f_rows := f_rows t ++ rows1 |}) in H; [|assumption|exact N|intros; apply Hf; now right]. cbn [f_cols f_rows] in H. destruct H as (rows & H1 & H2 & H3).
      exists (rows1 :: rows). split; [rewrite H1; cbn; now rewrite app_assoc|]. split; [constructor; assumption|]. intros k' Hk. now rewrite H3, E3.
  Qed.
End Frames.
