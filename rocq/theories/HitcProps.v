(** C130: collections of hits and their tables *)
From Verif Require Import Base PeaksModel PmapioModel TablesModel TablesHits HitcModel HitcSpec.
Local Open Scope Q_scope.

Lemma reads_hit_of cols r : reads cols r (hit_of cols r).
Proof.
  unfold reads, column, hit_of, charge, getattr, mk_hit, mk_cluster. cbn. repeat (split; try reflexivity); intros E; try (rewrite E; reflexivity).
  now rewrite (proj2 (Qeqb_neq _ _) E).
Qed.
Lemma no_charge_iff cols r : Qeqb (charge cols r) NN = true <-> no_charge cols r.
Proof. unfold no_charge, charge, getattr. rewrite Qeqb_eq. destruct (has_Q cols); split; intros H; try (split; [intros; first [exact H|discriminate]|intros; first [exact H|discriminate]]); now apply H. Qed.

(** Hits are read event by event: an event is there if and only if it has a hit that is not left out, and its hits are those of its rows, in order. *)
Theorem C130_read cols dst skip : (forall r s, In r dst -> In s dst -> r_event r = r_event s -> has_time cols = true -> r_time r == r_time s) ->
  exists d, load_hits cols (Ok dst) skip = Ok d /\ NoDup (map fst d) /\
  (forall ev, In ev (map fst d) <-> exists r, In r dst /\ r_event r = ev /\ (skip = true -> ~ no_charge cols r)) /\
  (forall ev t hits, In (ev, (t, hits)) d -> exists rows, Forall2 (reads cols) rows hits /\ (forall r, In r rows -> (has_time cols = true -> r_time r == t) /\ (has_time cols = false -> t == -(1))) /\
     exists keep, (forall r, keep r = true <-> r_event r = ev /\ (skip = true -> ~ no_charge cols r)) /\ rows = filter keep dst).
Proof.
  intros H. exists (hits_from_table cols dst skip). split; [destruct dst; reflexivity|].
  set (ht := if has_time cols then Some r_time else None). set (nn := fun r => Qeqb (charge cols r) NN).
  destruct (C53_hits_by_event (R := hrow) r_event ht nn dst skip) as (N & K & V).
  { intros r s Hr Hs E. unfold ht, time_of. destruct (has_time cols) eqn:T; [now apply H|reflexivity]. }
  set (keep := fun ev r => (r_event r =? ev)%Z && negb (skip && nn r)) in *.
  assert (KI : forall ev r, keep ev r = true <-> r_event r = ev /\ (skip = true -> ~ no_charge cols r)).
  { intros ev r. unfold keep. rewrite andb_true_iff, Z.eqb_eq, negb_true_iff, andb_false_iff. rewrite <- no_charge_iff. fold (nn r). destruct skip, (nn r); intuition (try discriminate; try congruence). }
  assert (F : map fst (hits_from_table cols dst skip) = map fst (hits_from_df hrow r_event ht nn dst skip)).
  { unfold hits_from_table. rewrite map_map. apply map_ext. now intros [ev [t l]]. }
  rewrite F. split; [exact N|]. split.
  - intros ev. rewrite K. change (filter (fun r => (r_event r =? ev)%Z && negb (skip && nn r)) dst) with (filter (keep ev) dst). split.
    + intros E. destruct (filter (keep ev) dst) as [|r l] eqn:G; [now destruct E|]. assert (I : In r (filter (keep ev) dst)) by (rewrite G; now left). apply filter_In in I. destruct I as [I1 I2]. exists r. split; [exact I1|]. now apply KI.
    + intros (r & I1 & I2) E. assert (I : In r (filter (keep ev) dst)) by (apply filter_In; split; [exact I1|now apply KI]). rewrite E in I. destruct I.
  - intros ev t hits I. unfold hits_from_table in I. apply in_map_iff in I. destruct I as ([e [t' l]] & E & I). injection E as -> -> <-. destruct (V ev t l I) as [El Et]. exists l. split.
    + clear. induction l; constructor; [apply reads_hit_of|assumption].
    + split; [|exists (keep ev); split; [apply KI|exact El]]. intros r Hr. specialize (Et r Hr). unfold ht, time_of in Et. destruct (has_time cols); split; intros; try discriminate; [exact Et|now rewrite <- Et].
Qed.
Print Assumptions C130_read.

(** A table that cannot be read raises what load_dst raises; an empty one has no events. load_hits_skipping_NN is what is left of load_hits without the hits with no charge. *)
Theorem C130_file cols : (forall e skip, load_hits cols (Err e) skip = Err e) /\ (forall skip, load_hits cols (Ok []) skip = Ok []) /\
  (forall dst d ev t hits h, load_hits_skipping_NN cols (Ok dst) = Ok d -> In (ev, (t, hits)) d -> In h hits -> ~ cl_Q (h_cluster h) == NN) /\
  (forall dst, (forall r, In r dst -> ~ no_charge cols r) -> load_hits_skipping_NN cols (Ok dst) = load_hits cols (Ok dst) false).
Proof.
  split; [reflexivity|]. split; [reflexivity|]. split.
  - intros dst d ev t hits h L I Ih. assert (E : d = hits_from_table cols dst true) by (destruct dst; cbn in L; injection L as <-; reflexivity). subst d. unfold hits_from_table in I. apply in_map_iff in I. destruct I as ([e [t' l]] & E & I). injection E as -> -> <-.
    apply in_map_iff in Ih. destruct Ih as (r & <- & Ir). change (~ charge cols r == NN). revert I. unfold hits_from_df.
    set (nn := fun r => Qeqb (charge cols r) NN). generalize (groupby hrow r_event (if has_time cols then Some r_time else None) dst). intros gs.
    assert (G : forall gs d0, (forall ev t l r, In (ev, (t, l)) d0 -> In r l -> nn r = false) -> forall ev t l r, In (ev, (t, l)) (fold_left (fun d '((ev, t), l) => match filter (fun r => negb (true && nn r)) l with [] => d | hits => set_event hrow d ev (t, hits) end) gs d0) -> In r l -> nn r = false).
    { clear. induction gs as [|[[ev0 t0] l0] gs IH]; intros d0 H0; [exact H0|]. cbn [fold_left]. apply IH. intros ev t l r I Ir. destruct (filter (fun r => negb (true && nn r)) l0) as [|x xs] eqn:F; [now apply (H0 ev t l)|].
      assert (S : In (ev, (t, l)) d0 \/ l = x :: xs).
      { clear - I. induction d0 as [|[e c] d0 IH]; cbn in I; [destruct I as [I|[]]; injection I as _ _ I; now right|]. destruct (e =? ev0)%Z; (destruct I as [I|I]; [|]).
        - injection I as _ _ I. now right.
        - left. now right.
        - left. now left.
        - destruct (IH I) as [K|K]; [left; now right|now right]. }
      destruct S as [S| ->]; [now apply (H0 ev t l)|]. rewrite <- F in Ir. apply filter_In in Ir. destruct Ir as [_ Ir]. now apply negb_true_iff in Ir. }
    intros I E. specialize (G gs [] ltac:(intros ? ? ? ? []) _ _ _ _ I Ir). unfold nn in G. apply Qeqb_neq in G. now apply G.
  - intros dst H. destruct dst as [|r0 dst0] eqn:Ed; [reflexivity|]. rewrite <- Ed in *. assert (L : forall b, load_hits cols (Ok dst) b = Ok (hits_from_table cols dst b)) by (intros b; rewrite Ed; reflexivity). unfold load_hits_skipping_NN. rewrite !L. f_equal. unfold hits_from_table. f_equal.
    unfold hits_from_df. set (ht := if has_time cols then Some r_time else None).
    assert (A : forall k l, In (k, l) (groupby hrow r_event ht dst) -> forall r, In r l -> Qeqb (charge cols r) NN = false).
    { intros k l I r Ir. rewrite (group_is _ _ dst k l I) in Ir. apply filter_In in Ir. destruct Ir as [Ir _]. destruct (Qeqb (charge cols r) NN) eqn:E; [|reflexivity]. apply no_charge_iff in E. now destruct (H r Ir). }
    revert A. generalize (groupby hrow r_event ht dst). clear. intros gs. generalize (@nil (Z * (Q * list hrow))). induction gs as [|[[ev t] l] gs IH]; intros d A; [reflexivity|]. cbn [fold_left].
    assert (F : filter (fun r => negb (true && Qeqb (charge cols r) NN)) l = filter (fun r => negb (false && Qeqb (charge cols r) NN)) l).
    { apply filter_ext_in. intros r Ir. rewrite (A (ev, t) l (or_introl eq_refl) r Ir). reflexivity. }
    rewrite F. apply IH. intros k l' I. apply (A k). now right.
Qed.
Print Assumptions C130_file.

Lemma stored_event l ev r : In r (store_all l) -> r_event r = ev -> exists c, In c l /\ c_event c = ev /\ In r (store c).
Proof.
  unfold store_all. rewrite in_flat_map. intros (c & Ic & Ir) E. exists c. split; [exact Ic|]. split; [|exact Ir]. unfold store in Ir. apply in_map_iff in Ir. destruct Ir as (h & <- & _). exact E.
Qed.
Lemma store_event c r : In r (store c) -> r_event r = c_event c /\ r_time r = c_time c.
Proof. unfold store. rewrite in_map_iff. now intros (h & <- & _). Qed.
Lemma unique_event l c c' : one_each l -> In c l -> In c' l -> c_event c = c_event c' -> c = c'.
Proof.
  unfold one_each. induction l as [|x l IH]; intros N I J E; [destruct I|]. cbn in N. inversion N as [|? ? N1 N2]; subst. destruct I as [->|I], J as [->|J]; [reflexivity| | |now apply IH].
  - destruct N1. rewrite E. now apply in_map.
  - destruct N1. rewrite <- E. now apply in_map.
Qed.
Lemma filter_nothing {A} (f : A -> bool) l : (forall x, In x l -> f x = false) -> filter f l = [].
Proof. induction l as [|x l IH]; intros H; [reflexivity|]. cbn. rewrite (H x (or_introl eq_refl)). apply IH. intros y I. apply H. now right. Qed.
Lemma filter_everything {A} (f : A -> bool) l : (forall x, In x l -> f x = true) -> filter f l = l.
Proof. induction l as [|x l IH]; intros H; [reflexivity|]. cbn. rewrite (H x (or_introl eq_refl)). f_equal. apply IH. intros y I. apply H. now right. Qed.
Lemma rows_of l c keep : one_each l -> In c l -> (forall r, keep r = true <-> r_event r = c_event c /\ (false = true -> ~ no_charge hits_table r)) -> filter keep (store_all l) = store c.
Proof.
  intros N I K. assert (Y : forall r, r_event r = c_event c -> keep r = true) by (intros r E; apply K; split; [exact E|discriminate]). assert (X : forall r, r_event r <> c_event c -> keep r = false) by (intros r E; destruct (keep r) eqn:G; [apply K in G; now destruct E|reflexivity]).
  unfold one_each in N. revert N I. induction l as [|x l IH]; intros N I; [destruct I|]. cbn in N. inversion N as [|? ? N1 N2]; subst. unfold store_all. cbn [flat_map]. rewrite filter_app. change (flat_map store l) with (store_all l). destruct I as [->|I].
  - rewrite (filter_everything keep (store c)) by (intros r Ir; apply Y; now apply store_event). rewrite (filter_nothing keep (store_all l)), app_nil_r; [reflexivity|].
    intros r Ir. apply X. intros E. destruct (stored_event l _ r Ir E) as (c' & I' & E' & _). apply N1. rewrite <- E'. now apply in_map.
  - rewrite (IH N2 I), (filter_nothing keep (store x)); [reflexivity|]. intros r Ir. apply X. destruct (store_event x r Ir) as [-> _]. intros E. apply N1. rewrite E. now apply in_map.
Qed.

(** Collections of different events that are stored and read are those stored that are not empty, with all that the table keeps of their hits; the number of the track is 0 for all of them, and the corrected energy Ep is lost. *)
Theorem C130_stored l : one_each l -> (forall c h, In c l -> In h (c_hits c) -> ~ cl_E (h_cluster h) == NN) ->
  exists d, load_hits hits_table (Ok (store_all l)) false = Ok d /\ NoDup (map fst d) /\ (forall ev, In ev (map fst d) <-> exists c, In c l /\ c_event c = ev /\ c_hits c <> []) /\
  forall c, In c l -> c_hits c <> [] -> exists t hits, In (c_event c, (t, hits)) d /\ t == c_time c /\ Forall2 (fun h k => same_hit h k /\ h_track k = 0%Z /\ h_Ep k = -(1)) (c_hits c) hits.
Proof.
  intros N HE. destruct (C130_read hits_table (store_all l) false) as (d & L & Nd & K & V).
  { intros r s Ir Is E _. destruct (stored_event l _ r Ir eq_refl) as (c & I1 & E1 & R1). destruct (stored_event l _ s Is eq_refl) as (c' & I2 & E2 & R2). assert (c = c') by (apply (unique_event l); congruence). subst c'. destruct (store_event c r R1) as [_ ->], (store_event c s R2) as [_ ->]. reflexivity. }
  exists d. split; [exact L|]. split; [exact Nd|].
  assert (K' : forall ev, In ev (map fst d) <-> exists c, In c l /\ c_event c = ev /\ c_hits c <> []).
  { intros ev. rewrite K. split.
    - intros (r & Ir & E & _). destruct (stored_event l ev r Ir E) as (c & I1 & E1 & R1). exists c. split; [exact I1|]. split; [exact E1|]. intros Z. unfold store in R1. rewrite Z in R1. destruct R1.
    - intros (c & Ic & E & Z). destruct (store c) as [|r rs] eqn:S; [unfold store in S; destruct (c_hits c); [now destruct Z|discriminate S]|]. assert (Ir : In r (store c)) by (rewrite S; now left). exists r. split; [unfold store_all; apply in_flat_map; now exists c|]. split; [destruct (store_event c r Ir) as [-> _]; exact E|discriminate]. }
  split; [exact K'|]. intros c Ic Z. assert (Iev : In (c_event c) (map fst d)) by (apply K'; now exists c). apply in_map_iff in Iev. destruct Iev as ([ev [t hits]] & E & I). cbn in E. subst ev. exists t, hits. split; [exact I|].
  destruct (V _ _ _ I) as (rows & R & T & keep & KI & Er). rewrite (rows_of l c keep N Ic KI) in Er. subst rows. split.
  - destruct (store c) as [|r rs] eqn:S; [unfold store in S; destruct (c_hits c); [now destruct Z|discriminate S]|]. destruct (T r (or_introl eq_refl)) as [T1 _]. rewrite <- (T1 eq_refl). destruct (store_event c r) as [_ ->]; [rewrite S; now left|reflexivity].
  - assert (HE' : forall h, In h (c_hits c) -> ~ cl_E (h_cluster h) == NN) by (intros h; now apply HE). unfold store in R. clear - R HE'. revert hits R HE'. induction (c_hits c) as [|h hs IH]; intros hits R HE'; cbn in R; inversion R as [|? k ? ks R1 R2]; subst; constructor.
    + destruct R1 as (A1 & A2 & A3 & A4 & [A5 _] & A6 & [A7 _] & [A8 _] & [A9 _] & [A10 _] & [_ A11]). cbn -[overflow_protection u16max] in *. split; [|split; [now apply A10|now apply A11]]. unfold same_hit.
      specialize (A6 (HE' h (or_introl eq_refl))). repeat (split; [first [assumption|now apply A5|now apply A7|now apply A8|now apply A9]|]). rewrite A4. unfold overflow_protection, u16max. change (Pos.to_nat 65535) with (N.to_nat 65535). generalize (N.to_nat 65535). intros m. destruct (Nat.ltb_spec m (h_npeak h)); [rewrite Nat.min_r|rewrite Nat.min_l]; try reflexivity; lia.
    + apply IH; [exact R2|]. intros h' I. apply HE'. now right.
Qed.
Print Assumptions C130_stored.

(** Shown false: that a hit read has the energy of its row. An energy NN is replaced with the charge. *)
Theorem C130_energy_refuted : ~ forall cols r, cl_E (h_cluster (hit_of cols r)) == r_E r.
Proof.
  intros H. specialize (H hits_table {| r_event := 1%Z; r_time := 0; r_npeak := 0; r_Xpeak := 0; r_Ypeak := 0; r_X := 0; r_Y := 0; r_Z := 0; r_Q := 5; r_E := NN; r_Ec := 0; r_track := 0%Z; r_Ep := 0 |}). discriminate H.
Qed.
Print Assumptions C130_energy_refuted.
(** Shown false: that a hit stored and read keeps the number of its track. *)
Definition ex_hit (x : Q) (track : Z) : hit := {| h_cluster := mk_cluster 5 x 2 1 3 7 0; h_npeak := 1; h_Xpeak := 0; h_Ypeak := 0; h_Ec := 8; h_track := track; h_Ep := 9 |}.
Theorem C130_track_refuted : ~ forall c d ev t hits k h, load_hits hits_table (Ok (store c)) false = Ok d -> In (ev, (t, hits)) d -> nth_error hits k = Some h -> exists h', nth_error (c_hits c) k = Some h' /\ h_track h = h_track h'.
Proof.
  intros H. specialize (H {| c_event := 4%Z; c_time := 1; c_hits := [ex_hit 1 3] |} _ _ _ _ 0%nat _ eq_refl (or_introl eq_refl) eq_refl). destruct H as (h' & E & T). injection E as <-. discriminate T.
Qed.
Print Assumptions C130_track_refuted.
Definition ex_collections : list collection := [ {| c_event := 4%Z; c_time := 1; c_hits := [ex_hit 1 3; ex_hit 2 3] |}; {| c_event := 3%Z; c_time := 2; c_hits := [] |}; {| c_event := 2%Z; c_time := 2; c_hits := [ex_hit 3 0] |} ].
Example C130_ex : one_each ex_collections /\ (forall c h, In c ex_collections -> In h (c_hits c) -> ~ cl_E (h_cluster h) == NN) /\ exists d, load_hits hits_table (Ok (store_all ex_collections)) false = Ok d /\ map fst d = [2%Z; 4%Z].
Proof.
  split; [unfold one_each; cbn; repeat constructor; cbn; intuition discriminate|]. split; [|eexists; split; reflexivity].
  intros c h I J K. cbn in I. repeat (destruct I as [<-|I]; [cbn in J; repeat (destruct J as [<-|J]; [discriminate K|]); destruct J|]). destruct I.
Qed.
