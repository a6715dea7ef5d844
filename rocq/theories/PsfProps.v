(** C41: the PSF does not depend on how the data are split in files *)
From Verif Require Import Base Arrays PeaksModel PeaksProofs BuffersProofs WfmProps PmapioProofs DbModel DbProps CorrModel CorrSpec CorrProps PsfModel PsfSpec.
Local Open Scope Q_scope.

Lemma key_eqb_iff a b : key_eqb a b = true <-> same_key a b.
Proof.
  revert b. induction a as [|x a IH]; intros [|y b]; cbn; split; intros H; try discriminate; try (now inversion H); try constructor.
  - apply andb_true_iff in H. now apply Qeqb_eq.
  - apply andb_true_iff in H. now apply IH.
  - inversion H; subst. apply andb_true_iff. split; [now apply Qeqb_eq|now apply IH].
Qed.
Lemma key_eqb_false a b : key_eqb a b = false <-> ~ same_key a b.
Proof. rewrite <- key_eqb_iff. destruct (key_eqb a b); split; intros; congruence. Qed.
Lemma same_refl a : same_key a a. Proof. induction a; constructor; [reflexivity|assumption]. Qed.
Lemma same_sym a b : same_key a b -> same_key b a. Proof. induction 1; constructor; [now symmetry|assumption]. Qed.
Lemma same_trans a b c : same_key a b -> same_key b c -> same_key a c.
Proof. intros H. revert c. induction H as [|x y a b E H IH]; intros c K; inversion K; subst; constructor; [etransitivity; eassumption|now apply IH]. Qed.
Lemma key_eqb_ext a b c : same_key a b -> key_eqb a c = key_eqb b c.
Proof. intros H. destruct (key_eqb b c) eqn:E; [apply key_eqb_iff in E; apply key_eqb_iff; eapply same_trans; eassumption|]. apply key_eqb_false in E. apply key_eqb_false. intros K. apply E. eapply same_trans; [apply same_sym|]; eassumption. Qed.
Lemma key_eqb_ext_r a b c : same_key b c -> key_eqb a b = key_eqb a c.
Proof. intros H. destruct (key_eqb a c) eqn:E; [apply key_eqb_iff in E; apply key_eqb_iff; eapply same_trans; [eassumption|now apply same_sym]|]. apply key_eqb_false in E. apply key_eqb_false. intros K. apply E. eapply same_trans; eassumption. Qed.
Lemma picks_filter {A} (f : A -> key) k l m : picks f k l m <-> m = filter (fun a => key_eqb k (f a)) l.
Proof.
  split.
  - induction 1 as [|a l m H _ IH|a l m H _ IH]; cbn; [reflexivity| |].
    + apply key_eqb_iff in H. now rewrite H, IH.
    + apply key_eqb_false in H. now rewrite H.
  - intros ->. induction l as [|a l IH]; cbn; [constructor|]. destruct (key_eqb k (f a)) eqn:E.
    + constructor; [now apply key_eqb_iff|assumption].
    + constructor; [now apply key_eqb_false|assumption].
Qed.

(** ---- groups ---- *)
Definition distinct_list (l : list key) : Prop := ForallOrdPairs (fun a b => ~ same_key a b) l.
Lemma fop_filter {A} (R : A -> A -> Prop) p l : ForallOrdPairs R l -> ForallOrdPairs R (filter p l).
Proof. induction 1 as [|a l F _ IH]; cbn; [constructor|]. destruct (p a); [|assumption]. constructor; [|assumption]. apply Forall_forall. intros b Hb. apply filter_In in Hb. rewrite Forall_forall in F. now apply F. Qed.
Lemma fop_perm {A} (R : A -> A -> Prop) l m : (forall a b, R a b -> R b a) -> Permutation l m -> ForallOrdPairs R l -> ForallOrdPairs R m.
Proof.
  intros Sym P. induction P as [|a l m P IH|a b l|l m n P1 IH1 P2 IH2]; intros H; [constructor| | |auto].
  - inversion H as [|? ? F H']; subst. constructor; [|now apply IH]. rewrite Forall_forall in *. intros x Hx. apply F. eapply Permutation_in; [symmetry|]; eassumption.
  - inversion H as [|? ? F H']; subst. inversion H' as [|? ? F' H'']; subst. inversion F; subst. constructor; [constructor; [auto|assumption]|constructor; assumption].
Qed.
Lemma distinct_keys_in l k : In k (distinct_keys l) -> In k l.
Proof. revert k. induction l as [|a l IH]; intros k H; cbn in *; [assumption|]. destruct H as [->|H]; [now left|]. apply filter_In in H. right. now apply IH. Qed.
Lemma distinct_keys_covers l k : In k l -> exists k', In k' (distinct_keys l) /\ same_key k k'.
Proof.
  induction l as [|a l IH]; [intros []|]. intros H. destruct (key_eqb a k) eqn:E.
  - exists a. split; [now left|]. apply key_eqb_iff in E. now apply same_sym.
  - destruct H as [->|H]; [exfalso; apply key_eqb_false in E; apply E, same_refl|]. destruct (IH H) as (k' & H1 & H2). exists k'. split; [|assumption]. right. apply filter_In. split; [assumption|]. rewrite <- (key_eqb_ext_r a k k' H2). now rewrite E.
Qed.
Lemma distinct_keys_distinct l : distinct_list (distinct_keys l).
Proof. induction l as [|a l IH]; cbn; constructor; [|now apply fop_filter]. apply Forall_forall. intros b Hb. apply filter_In in Hb. apply key_eqb_false. destruct Hb as [_ Hb]. now destruct (key_eqb a b). Qed.
Lemma group_keys_perm l : Permutation (group_keys l) (distinct_keys l). Proof. apply sort_by_perm. Qed.
Lemma group_keys_distinct l : distinct_list (group_keys l).
Proof. apply (fop_perm _ (distinct_keys l)); [intros a b H K; apply H; now apply same_sym|symmetry; apply group_keys_perm|apply distinct_keys_distinct]. Qed.
Lemma group_keys_in l k : In k (group_keys l) -> In k l.
Proof. intros H. apply distinct_keys_in. eapply Permutation_in; [apply group_keys_perm|assumption]. Qed.
Lemma group_keys_covers l k : In k l -> exists k', In k' (group_keys l) /\ same_key k k'.
Proof. intros H. destruct (distinct_keys_covers l k H) as (k' & H1 & H2). exists k'. split; [|assumption]. eapply Permutation_in; [symmetry; apply group_keys_perm|assumption]. Qed.

(** ---- combining tables ---- *)
Definition N (k : key) (rows : list prow) : nat := sumN (map nevt (filter (fun r => key_eqb k (pkey r)) rows)).
Definition W (k : key) (rows : list prow) : Q := sumF (fun r => factor r * qn (nevt r)) (filter (fun r => key_eqb k (pkey r)) rows).
Lemma sumN_app l m : sumN (l ++ m) = (sumN l + sumN m)%nat.
Proof. unfold sumN. induction l as [|x l IH]; cbn; [reflexivity|]. rewrite IH. apply Nat.add_assoc. Qed.
Lemma N_app k a b : N k (a ++ b) = (N k a + N k b)%nat.
Proof. unfold N. now rewrite filter_app, map_app, sumN_app. Qed.
Lemma W_app k a b : W k (a ++ b) == W k a + W k b.
Proof. unfold W. now rewrite filter_app, sumF_app. Qed.
Lemma N_same k k' rows : same_key k k' -> N k rows = N k' rows.
Proof. intros H. unfold N. f_equal. f_equal. apply filter_ext. intros r. now apply key_eqb_ext. Qed.
Lemma W_same k k' rows : same_key k k' -> W k rows = W k' rows.
Proof. intros H. unfold W. f_equal. apply filter_ext. intros r. now apply key_eqb_ext. Qed.
Lemma N_zero_W k rows : N k rows = 0%nat -> W k rows == 0.
Proof.
  unfold N, W. induction (filter _ rows) as [|r l IH]; [reflexivity|]. cbn [map sumN fold_right]. intros H. rewrite sumF_cons. assert (E : nevt r = 0%nat) by lia. rewrite E.
  rewrite IH by (unfold sumN; lia). change (qn 0) with 0. lra.
Qed.
Lemma single_filter (t : list prow) r : distinct_rows t -> In r t -> filter (fun s => key_eqb (pkey r) (pkey s)) t = [r].
Proof.
  intros D. induction D as [|a t F D IH]; [intros []|]. intros [->|H]; cbn.
  - assert (E : key_eqb (pkey r) (pkey r) = true) by (apply key_eqb_iff, same_refl). rewrite E. f_equal. apply filter_none_in. intros s Hs. rewrite Forall_forall in F. apply key_eqb_false. now apply F.
  - rewrite Forall_forall in F. assert (E : key_eqb (pkey r) (pkey a) = false) by (apply key_eqb_false; intros K; apply (F r H); now apply same_sym). rewrite E. now apply IH.
Qed.
Lemma N_single t k r : distinct_rows t -> In r t -> same_key k (pkey r) -> N k t = nevt r /\ W k t == factor r * qn (nevt r).
Proof. intros D H S. rewrite (N_same k (pkey r)), (W_same k (pkey r)) by assumption. unfold N, W. rewrite (single_filter t r D H). cbn [map sumN fold_right]. unfold sumF. cbn [map sumQ]. split; [lia|lra]. Qed.
Definition has_key (rows : list prow) (k : key) : Prop := exists r, In r rows /\ same_key k (pkey r).
Lemma N_absent t k : ~ has_key t k -> N k t = 0%nat /\ W k t == 0.
Proof. intros H. unfold N, W. rewrite filter_none_in; [split; reflexivity|]. intros r Hr. apply key_eqb_false. intros S. apply H. now exists r. Qed.
Lemma has_key_dec t k : has_key t k \/ ~ has_key t k.
Proof.
  destruct (existsb (fun r => key_eqb k (pkey r)) t) eqn:E.
  - left. apply existsb_exists in E. destruct E as (r & H & S). exists r. split; [assumption|now apply key_eqb_iff].
  - right. intros (r & H & S). apply key_eqb_iff in S. assert (existsb (fun r => key_eqb k (pkey r)) t = true) by (apply existsb_exists; now exists r). congruence.
Qed.
(** the keys of a table, the number of events and the sum of the charges at each key *)
Definition represents (rows t : list prow) : Prop :=
  distinct_rows t /\ (forall k, has_key t k <-> has_key rows k) /\ (forall k, N k t = N k rows /\ W k t == W k rows) /\ forall r, In r t -> nevt r = 0%nat -> factor r == 0.
Lemma self_represents t : well_formed t -> represents t t.
Proof. intros [D Z]. repeat split; try assumption; try reflexivity; auto. Qed.
Lemma qn_nz n : n <> 0%nat -> ~ qn n == 0.
Proof. intros H. assert (0 < qn n) by (apply qn_pos; lia). lra. Qed.
Lemma group_represents rows : represents rows (map (combined rows) (group_keys (map pkey rows))).
Proof.
  set (t := map (combined rows) (group_keys (map pkey rows))).
  assert (Key : forall k, pkey (combined rows k) = k) by reflexivity.
  assert (D : distinct_rows t).
  { pose proof (group_keys_distinct (map pkey rows)) as G. unfold distinct_rows, t. unfold distinct_list in G. induction G as [|a l F G IH]; cbn [map]; constructor; [|assumption]. rewrite Forall_forall in *. intros r Hr. apply in_map_iff in Hr. destruct Hr as (k & <- & Hk). rewrite !Key. now apply F. }
  assert (P : forall k, has_key t k <-> has_key rows k).
  { intros k. split.
    - intros (r & Hr & S). unfold t in Hr. apply in_map_iff in Hr. destruct Hr as (k' & <- & Hk'). rewrite Key in S. apply group_keys_in, in_map_iff in Hk'. destruct Hk' as (r & <- & Hr). now exists r.
    - intros (r & Hr & S). destruct (group_keys_covers (map pkey rows) (pkey r) (in_map pkey _ _ Hr)) as (k' & Hk' & S').
      exists (combined rows k'). split; [now apply in_map|]. rewrite Key. eapply same_trans; eassumption. }
  assert (F : forall k, factor (combined rows k) * qn (N k rows) == W k rows).
  { intros k. change (factor (combined rows k)) with (if (N k rows =? 0)%nat then 0 else W k rows / qn (N k rows)). destruct (Nat.eqb_spec (N k rows) 0) as [E|E].
    - rewrite (N_zero_W k rows E), E. change (qn 0) with 0. lra.
    - field. now apply qn_nz. }
  split; [assumption|]. split; [assumption|]. split.
  - intros k. destruct (has_key_dec t k) as [H|H].
    + destruct H as (r & Hr & S). destruct (N_single t k r D Hr S) as [-> ->]. unfold t in Hr. apply in_map_iff in Hr. destruct Hr as (k' & <- & Hk'). rewrite Key in S.
      rewrite (N_same k k'), (W_same k k') by assumption. split; [reflexivity|apply F].
    + destruct (N_absent t k H) as [-> ->]. assert (H' : ~ has_key rows k) by (intros K; apply H; now apply P). destruct (N_absent rows k H') as [-> ->]. split; reflexivity.
  - intros r Hr. unfold t in Hr. apply in_map_iff in Hr. destruct Hr as (k & <- & Hk). intros E. change (factor (combined rows k)) with (if (nevt (combined rows k) =? 0)%nat then 0 else W k rows / qn (N k rows)). now rewrite E.
Qed.
Lemma has_key_app a b k : has_key (a ++ b) k <-> has_key a k \/ has_key b k.
Proof. unfold has_key. split; [intros (r & H & S); apply in_app_iff in H; destruct H; [left|right]; now exists r|intros [(r & H & S)|(r & H & S)]; exists r; (split; [apply in_app_iff; auto|assumption])]. Qed.
Lemma represents_app rows acc new t : represents rows acc -> represents (acc ++ new) t -> represents (rows ++ new) t.
Proof.
  intros (D & P & V & Z) (D' & P' & V' & Z'). split; [assumption|]. split; [|split; [|assumption]].
  - intros k. rewrite P', !has_key_app, P. reflexivity.
  - intros k. destruct (V k) as [V1 V2], (V' k) as [V3 V4]. rewrite V3, V4, !N_app, !W_app, V1, V2. split; reflexivity.
Qed.
Lemma fold_represents frames rows acc : represents rows acc -> exists t, fold_left combine_psfs frames (Some acc) = Some t /\ represents (rows ++ concat frames) t.
Proof.
  revert rows acc. induction frames as [|f frames IH]; intros rows acc R; cbn [fold_left concat].
  - exists acc. rewrite app_nil_r. now split.
  - destruct (IH (rows ++ f) (map (combined (acc ++ f)) (group_keys (map pkey (acc ++ f))))) as (t & E & R'); [eapply represents_app; [eassumption|apply group_represents]|]. exists t. rewrite app_assoc. now split.
Qed.
Lemma frames_represents frames : frames <> [] -> Forall well_formed frames -> exists t, fold_left combine_psfs frames None = Some t /\ represents (concat frames) t.
Proof. destruct frames as [|f frames]; [congruence|]. intros _ F. inversion F; subst. apply (fold_represents frames f f). now apply self_represents. Qed.
Lemma represents_average rows t : represents rows t -> weighted_average rows t.
Proof.
  intros (D & P & V & Z). split; [assumption|]. split; [exact P|]. intros r Hr. eexists. split; [apply picks_filter; reflexivity|].
  destruct (V (pkey r)) as [V1 V2]. destruct (N_single t (pkey r) r D Hr (same_refl _)) as [E1 E2]. fold (N (pkey r) rows) (W (pkey r) rows). rewrite <- V1, E1, <- V2, E2. split; [reflexivity|]. split; [now apply Z|]. intros NZ. field. now apply qn_nz.
Qed.

(** accumulating any sequence of tables: one row per key of any of them, with all its events and the mean weighted with the number of events *)
Theorem C41_accumulate frames : frames <> [] -> Forall well_formed frames ->
  exists t, fold_left combine_psfs frames None = Some t /\ weighted_average (concat frames) t.
Proof. intros H F. destruct (frames_represents frames H F) as (t & E & R). exists t. split; [assumption|now apply represents_average]. Qed.
Print Assumptions C41_accumulate.

Lemma rows_agree (a b : list prow) : represents b a -> forall c, represents b c -> forall r, In r a -> exists r', In r' c /\ agrees r r'.
Proof.
  intros (D & P & V & Z) c (D' & P' & V' & Z') r Hr. assert (H : has_key c (pkey r)) by (apply P', P; exists r; split; [assumption|apply same_refl]).
  destruct H as (r' & Hr' & S). exists r'. split; [assumption|]. split; [assumption|].
  destruct (N_single a (pkey r) r D Hr (same_refl _)) as [E1 E2], (N_single c (pkey r) r' D' Hr' S) as [E3 E4]. destruct (V (pkey r)) as [V1 V2], (V' (pkey r)) as [V3 V4].
  assert (EN : nevt r = nevt r') by congruence. split; [|assumption]. destruct (Nat.eq_dec (nevt r) 0) as [E0|E0].
  - rewrite (Z r Hr E0), (Z' r' Hr'); [reflexivity|congruence].
  - assert (EW : factor r * qn (nevt r) == factor r' * qn (nevt r)) by (rewrite <- E2, V2, <- V4, E4, EN; reflexivity). apply (Qmult_inj_r _ _ (qn (nevt r))); [now apply qn_nz|assumption].
Qed.
Lemma agrees_sym a b : agrees a b -> agrees b a.
Proof. intros (S & F & E). split; [now apply same_sym|]. split; [now symmetry|congruence]. Qed.
Lemma agree_length a : forall b, distinct_rows a -> distinct_rows b -> (forall r, In r a -> exists r', In r' b /\ agrees r r') -> (length a <= length b)%nat.
Proof.
  induction a as [|r a IH]; intros b D D' H; [cbn; lia|]. destruct (H r (or_introl eq_refl)) as (r' & Hr' & A). apply in_split in Hr'. destruct Hr' as (b1 & b2 & ->).
  inversion D as [|? ? F Da]; subst. assert (L : (length a <= length (b1 ++ b2))%nat).
  { apply IH; [assumption| |].
    - assert (D2 : distinct_rows (r' :: b1 ++ b2)) by (eapply fop_perm; [|symmetry; apply Permutation_middle|exact D']; intros x y N1 S; apply N1; now apply same_sym). now inversion D2.
    - intros s Hs. destruct (H s (or_intror Hs)) as (s' & Hs' & As). exists s'. split; [|assumption]. apply in_app_iff in Hs'. apply in_app_iff. destruct Hs' as [Hs'|[<-|Hs']]; [now left| |now right].
      exfalso. rewrite Forall_forall in F. apply (F s Hs). destruct A as [A _], As as [As _]. eapply same_trans; [exact A|now apply same_sym]. }
  rewrite app_length in *. cbn. lia.
Qed.
Lemma represents_same rows a b : represents rows a -> represents rows b -> same_table a b.
Proof.
  intros Ra Rb. assert (A1 := rows_agree a rows Ra b Rb). assert (A2 := rows_agree b rows Rb a Ra). destruct Ra as (Da & _), Rb as (Db & _).
  split; [apply Nat.le_antisymm; now apply agree_length|]. split; [assumption|]. intros r Hr. destruct (A2 r Hr) as (r' & H & K). exists r'. split; [assumption|now apply agrees_sym].
Qed.
Lemma represents_ext rows rows' t : (forall k, has_key rows k <-> has_key rows' k) -> (forall k, N k rows = N k rows' /\ W k rows == W k rows') -> represents rows t -> represents rows' t.
Proof. intros H K (D & P & V & Z). split; [assumption|]. split; [intros k; now rewrite P|]. split; [|assumption]. intros k. destruct (V k) as [-> ->]. apply K. Qed.
Lemma concat_perm {A} (l m : list (list A)) : Permutation l m -> Permutation (concat l) (concat m).
Proof. induction 1; cbn; [constructor|now apply Permutation_app_head|rewrite !app_assoc; apply Permutation_app_tail, Permutation_app_comm|etransitivity; eassumption]. Qed.
Lemma sumN_perm l m : Permutation l m -> sumN l = sumN m.
Proof. unfold sumN. induction 1; cbn; lia. Qed.
Lemma filter_perm {A} (p : A -> bool) l m : Permutation l m -> Permutation (filter p l) (filter p m).
Proof. induction 1 as [|x l m P IH|x y l|l m n P1 IH1 P2 IH2]; cbn; [constructor| | |etransitivity; eassumption]; [destruct (p x); [now constructor|assumption]|destruct (p x), (p y); try reflexivity; constructor]. Qed.
Lemma N_perm k a b : Permutation a b -> N k a = N k b /\ W k a == W k b.
Proof. intros P. split; [apply sumN_perm, Permutation_map|apply sumF_perm]; now apply filter_perm. Qed.
Lemma has_key_perm k a b : Permutation a b -> has_key a k <-> has_key b k.
Proof. intros P. unfold has_key. split; intros (r & H & S); exists r; (split; [|assumption]); (eapply Permutation_in; [|eassumption]); [|symmetry]; assumption. Qed.

(** the order in which the tables are accumulated does not matter *)
Theorem C41_order frames frames' : frames <> [] -> Forall well_formed frames -> Permutation frames frames' ->
  exists t t', fold_left combine_psfs frames None = Some t /\ fold_left combine_psfs frames' None = Some t' /\ same_table t t'.
Proof.
  intros H F P. destruct (frames_represents frames H F) as (t & E & R). destruct (frames_represents frames') as (t' & E' & R').
  - intros ->. apply Permutation_sym, Permutation_nil in P. contradiction.
  - apply Forall_forall. intros f Hf. rewrite Forall_forall in F. apply F. eapply Permutation_in; [symmetry|]; eassumption.
  - exists t, t'. split; [assumption|]. split; [assumption|]. apply (represents_same (concat frames')); [|assumption]. apply concat_perm in P. eapply represents_ext; [| |exact R]; intros k; [now apply has_key_perm|now apply N_perm].
Qed.
Print Assumptions C41_order.

(** accumulating in two parts and joining them gives the same as accumulating everything *)
Theorem C41_joined first second a b : first <> [] -> second <> [] -> Forall well_formed first -> Forall well_formed second ->
  fold_left combine_psfs first None = Some a -> fold_left combine_psfs second None = Some b ->
  exists t t', combine_psfs (Some a) b = Some t /\ fold_left combine_psfs (first ++ second) None = Some t' /\ same_table t t'.
Proof.
  intros H1 H2 F1 F2 E1 E2. destruct (frames_represents first H1 F1) as (a' & E & Ra), (frames_represents second H2 F2) as (b' & E' & Rb). rewrite E1 in E. rewrite E2 in E'. injection E as <-. injection E' as <-.
  destruct (frames_represents (first ++ second)) as (t' & E & R'); [destruct first; [congruence|discriminate]|apply Forall_app; now split|].
  eexists. exists t'. split; [reflexivity|]. split; [assumption|]. rewrite concat_app in R'. apply (represents_same (concat first ++ concat second)); [|assumption].
  assert (G := group_represents (a ++ b)). eapply represents_ext; [| |exact G]; intros k.
  - rewrite !has_key_app. destruct Ra as (_ & Pa & _), Rb as (_ & Pb & _). now rewrite Pa, Pb.
  - rewrite !N_app, !W_app. destruct Ra as (_ & _ & Va & _), Rb as (_ & _ & Vb & _). destruct (Va k) as [-> ->], (Vb k) as [-> ->]. split; reflexivity.
Qed.
Print Assumptions C41_joined.
(** two tables with one common key *)
Definition table_a : list prow := [{| pkey := [0; 0]; factor := 1 # 2; nevt := 2 |}; {| pkey := [1; 0]; factor := 0; nevt := 0 |}].
Definition table_b : list prow := [{| pkey := [0; 0]; factor := 1 # 4; nevt := 6 |}; {| pkey := [2; 0]; factor := 1; nevt := 1 |}].
Example tables_well_formed : Forall well_formed [table_a; table_b].
Proof.
  repeat constructor; cbn; try (intros K; apply key_eqb_iff in K; discriminate); intros r H; destruct H as [<-|[<-|[]]]; cbn; intros E; try discriminate; reflexivity.
Qed.
Example tables_combined : exists t, fold_left combine_psfs [table_a; table_b] None = Some t /\ map (fun r => (nevt r, Qred (factor r))) t = [(8%nat, 5 # 16); (0%nat, 0); (1%nat, 1)].
Proof. eexists. split; [reflexivity|]. vm_compute. reflexivity. Qed.
