(** C77 *)
From Coq Require Import Lia Lqa Sorted Relations.
From Verif Require Import Base Arrays PeaksModel ReadModel TagModel TagSpec TagProofs.
Local Open Scope Q_scope.

(** two hits are close: at most 1.8 in units of the scales *)
Definition close_hits (scale_xy scale_z : Q) (a b : taghit) : Prop :=
  let dx := (th_x a - th_x b) / scale_xy in let dy := (th_y a - th_y b) / scale_xy in let dz := (th_z a - th_z b) / scale_z in
  dx * dx + dy * dy + dz * dz <= (18 # 10) * (18 # 10).
Definition close_at (scale_xy scale_z : Q) (hits : list taghit) (i j : nat) : Prop :=
  exists a b, nth_error hits i = Some a /\ nth_error hits j = Some b /\ close_hits scale_xy scale_z a b.
(** a hit is dense: at least [min_samples] hits are close to it, itself among them *)
Definition dense_at (min_samples : Z) (scale_xy scale_z : Q) (hits : list taghit) (i : nat) : Prop :=
  exists l, NoDup l /\ (forall j, In j l <-> close_at scale_xy scale_z hits i j) /\ (min_samples <= Z.of_nat (length l))%Z.

Lemma within_close sxy sz hits i j : within_eps sxy sz hits i j = true <-> close_at sxy sz hits i j.
Proof.
  unfold within_eps, close_at. destruct (nth_error hits i) as [a|]; [|split; [discriminate|intros (a & b & H & _); discriminate]]. destruct (nth_error hits j) as [b|]; [|split; [discriminate|intros (a' & b & _ & H & _); discriminate]].
  rewrite Qle_bool_iff. unfold close_hits, scaled2. assert (S : forall u v s : Q, (u - v) / s == u / s - v / s) by (intros; unfold Qdiv; ring). split.
  - intros H. exists a, b. split; [reflexivity|]. split; [reflexivity|]. cbn zeta. rewrite !S. apply (Qle_trans _ _ _ H). discriminate.
  - intros (a' & b' & E1 & E2 & H). injection E1 as <-. injection E2 as <-. cbn zeta in H. rewrite !S in H. cbn zeta. apply (Qle_trans _ _ _ H). discriminate.
Qed.
Lemma neighbours_spec sxy sz hits i j : In j (neighbours_of sxy sz hits i) <-> close_at sxy sz hits i j.
Proof.
  unfold neighbours_of. rewrite filter_In, within_close, in_seq. split; [tauto|]. intros H. split; [|assumption]. destruct H as (a & b & _ & H & _). assert (j < length hits)%nat by (apply nth_error_Some; congruence). lia.
Qed.
Lemma close_sym sxy sz hits i j : close_at sxy sz hits i j -> close_at sxy sz hits j i.
Proof.
  intros (a & b & H1 & H2 & H). exists b, a. split; [assumption|]. split; [assumption|]. unfold close_hits in *. cbn zeta in *. apply Qle_trans with (2 := H). apply Qle_lteq. right. unfold Qdiv. ring.
Qed.
Lemma are_clusters_ext n (close close' : nat -> nat -> Prop) (dense dense' : nat -> Prop) labels : (forall a b, close a b <-> close' a b) -> (forall a, (a < n)%nat -> dense a <-> dense' a) ->
  are_clusters n close dense labels -> are_clusters n close' dense' labels.
Proof.
  intros Hc Hd (I0 & I1 & I2 & I3 & I4 & m & I5 & I6). assert (Ch : forall a b, chain n close dense a b <-> chain n close' dense' a b).
  { intros a b. split; intros C; (induction C as [x y (A & B & C & D & E)|x|x y z _ J1 _ J2]; [apply rt_step|apply rt_refl|eapply rt_trans; eassumption]).
    - split; [assumption|]. split; [assumption|]. split; [now apply Hd|]. split; [now apply Hd|now apply Hc].
    - split; [assumption|]. split; [assumption|]. split; [now apply Hd|]. split; [now apply Hd|now apply Hc]. }
  split; [assumption|]. split; [intros a Ha D; apply I1; [assumption|now apply Hd]|]. split; [intros a b Ha Hb Da Db; rewrite <- Ch; apply I2; [assumption..|now apply Hd|now apply Hd]|].
  split; [intros a Ha Da N b Hb Db C; apply (I3 a Ha) with (b := b); [intros D; apply Da; now apply Hd|assumption..|now apply Hd|now apply Hc]|]. split.
  - intros a l Ha Da E. destruct (I4 a l Ha) as ((b & Hb & Db & Cb & Lb) & J); [intros D; apply Da; now apply Hd|assumption|]. split; [exists b; split; [assumption|]; split; [now apply Hd|]; split; [now apply Hc|assumption]|].
    intros b' k Hb' Db' Cb' Lb'. apply (J b' k Hb'); [now apply Hd|now apply Hc|assumption].
  - exists m. split; [assumption|]. intros l Hl. destruct (I6 l Hl) as (a & Ha & Da & La). exists a. split; [assumption|]. split; [now apply Hd|assumption].
Qed.

(** the hits of an event get the number of their cluster, or -1 *)
Theorem C77_clusters min_samples scale_xy scale_z hits : exists labels,
  tag_hits_in_event min_samples scale_xy scale_z hits = combine hits (map cluster_number labels) /\
  are_clusters (length hits) (close_at scale_xy scale_z hits) (dense_at min_samples scale_xy scale_z hits) labels.
Proof.
  unfold tag_hits_in_event. eexists. split; [reflexivity|]. set (nb := neighbours_of scale_xy scale_z hits). set (core := fun i => (min_samples <=? Z.of_nat (length (nb i)))%Z).
  apply are_clusters_ext with (close := fun a b => In b (nb a)) (dense := fun a => core a = true).
  - intros a b. apply neighbours_spec.
  - intros a _. unfold core. rewrite Z.leb_le. split.
    + intros H. exists (nb a). split; [apply NoDup_filter, seq_NoDup|]. split; [intros j; apply neighbours_spec|assumption].
    + intros (l & ND & Hl & H). assert (length l <= length (nb a))%nat; [|lia]. apply NoDup_incl_length; [assumption|]. intros j Hj. apply neighbours_spec. now apply Hl.
  - apply dbscan_clusters.
    + intros i j H. apply neighbours_spec in H. destruct H as (a & b & H1 & H2 & _). split; apply nth_error_Some; congruence.
    + intros i. unfold nb, neighbours_of. pose proof (filter_length_le (within_eps scale_xy scale_z hits i) (seq 0 (length hits))). now rewrite seq_length in *.
    + intros i j H. apply neighbours_spec. apply neighbours_spec in H. now apply close_sym.
Qed.
Print Assumptions C77_clusters.

(** for hits on a grid with the pitch of the scales, the close ones are those next to it, also along the diagonals *)
Theorem C77_neighbours scale_xy scale_z a b (i j k i' j' k' : Z) : 0 < scale_xy -> 0 < scale_z ->
  th_x a == inject_Z i * scale_xy -> th_y a == inject_Z j * scale_xy -> th_z a == inject_Z k * scale_z ->
  th_x b == inject_Z i' * scale_xy -> th_y b == inject_Z j' * scale_xy -> th_z b == inject_Z k' * scale_z ->
  (close_hits scale_xy scale_z a b <-> (Z.abs (i - i') <= 1 /\ Z.abs (j - j') <= 1 /\ Z.abs (k - k') <= 1)%Z).
Proof.
  intros Sx Sz A1 A2 A3 B1 B2 B3. unfold close_hits. cbn zeta. rewrite A1, A2, A3, B1, B2, B3.
  assert (E : forall (u v : Z) s, 0 < s -> (inject_Z u * s - inject_Z v * s) / s == inject_Z (u - v)) by (intros u v s S; unfold Z.sub; rewrite inject_Z_plus, inject_Z_opp; field; lra).
  rewrite !E by assumption. rewrite <- !inject_Z_mult, <- !inject_Z_plus. set (di := (i - i')%Z). set (dj := (j - j')%Z). set (dk := (k - k')%Z). clearbody di dj dk.
  assert (H : inject_Z (di * di + dj * dj + dk * dk) <= (18 # 10) * (18 # 10) <-> (di * di + dj * dj + dk * dk <= 3)%Z).
  { change ((18 # 10) * (18 # 10)) with (324 # 100). generalize (di * di + dj * dj + dk * dk)%Z as s. intros s. unfold Qle, inject_Z. cbn [Qnum Qden]. lia. }
  rewrite H. split; [intros; nia|]. intros (H1 & H2 & H3). assert (forall d, (Z.abs d <= 1 -> d * d <= 1)%Z) as Sq by (intros; nia). pose proof (Sq di H1). pose proof (Sq dj H2). pose proof (Sq dk H3). lia.
Qed.
Print Assumptions C77_neighbours.

(** rows by event *)
Lemma in_insert_event e l x : In x (insert_event e l) <-> x = e \/ In x l.
Proof.
  induction l as [|f l IH]; cbn [insert_event]; [cbn; intuition congruence|]. destruct (Z.ltb_spec e f); [cbn; intuition congruence|]. destruct (Z.eqb_spec e f) as [->|]; [cbn; intuition congruence|]. cbn [In]. rewrite IH. tauto.
Qed.
Lemma insert_event_sorted e l : StronglySorted Z.lt l -> StronglySorted Z.lt (insert_event e l).
Proof.
  induction l as [|f l IH]; intros S; [repeat constructor|]. cbn [insert_event]. inversion S as [|? ? S' F]; subst. destruct (Z.ltb_spec e f) as [H|H].
  - constructor; [assumption|]. constructor; [assumption|]. rewrite Forall_forall in *. intros x Hx. specialize (F x Hx). lia.
  - destruct (Z.eqb_spec e f) as [->|N]; [assumption|]. constructor; [auto|]. rewrite Forall_forall in *. intros x Hx. apply in_insert_event in Hx. destruct Hx as [->|Hx]; [lia|auto].
Qed.
Lemma keys_sorted hits : StronglySorted Z.lt (event_keys hits).
Proof. unfold event_keys. induction (map th_event hits) as [|e l IH]; cbn [fold_right]; [constructor|now apply insert_event_sorted]. Qed.
Lemma keys_in hits e : In e (event_keys hits) <-> In e (map th_event hits).
Proof. unfold event_keys. induction (map th_event hits) as [|f l IH]; cbn [fold_right]; [tauto|]. rewrite in_insert_event, IH. cbn. intuition congruence. Qed.

Section Keyed.
  Context {A : Type} (key : A -> Z).
  Definition by_key (l : list A) : Prop := StronglySorted (fun a b => (key a <= key b)%Z) l.
  (** a list ordered by key is determined by the rows of each key *)
  Lemma same_rows l : forall m, by_key l -> by_key m -> (forall e, filter (fun a => Z.eqb (key a) e) l = filter (fun a => Z.eqb (key a) e) m) -> l = m.
  Proof.
    induction l as [|a l IH]; intros m Sl Sm H.
    - destruct m as [|b m]; [reflexivity|]. specialize (H (key b)). cbn in H. rewrite Z.eqb_refl in H. discriminate.
    - destruct m as [|b m]; [specialize (H (key a)); cbn in H; rewrite Z.eqb_refl in H; discriminate|]. inversion Sl as [|? ? Sl' Fl]; subst. inversion Sm as [|? ? Sm' Fm]; subst. rewrite Forall_forall in Fl, Fm.
      assert (K1 : (key b <= key a)%Z).
      { assert (I : In a (filter (fun x => Z.eqb (key x) (key a)) (b :: m))) by (rewrite <- H; apply filter_In; split; [now left|apply Z.eqb_refl]). apply filter_In in I. destruct I as [[<-|I] _]; [lia|auto]. }
      assert (K2 : (key a <= key b)%Z).
      { assert (I : In b (filter (fun x => Z.eqb (key x) (key b)) (a :: l))) by (rewrite H; apply filter_In; split; [now left|apply Z.eqb_refl]). apply filter_In in I. destruct I as [[<-|I] _]; [lia|auto]. }
      assert (K : key a = key b) by lia. pose proof (H (key a)) as Ha. cbn [filter] in Ha. rewrite Z.eqb_refl, <- K, Z.eqb_refl in Ha. injection Ha as -> _. f_equal. apply IH; [assumption..|].
      intros e. specialize (H e). cbn [filter] in H. destruct (Z.eqb (key b) e); [now injection H|assumption].
  Qed.
  Lemma by_key_app l m : by_key l -> by_key m -> (forall a b, In a l -> In b m -> (key a <= key b)%Z) -> by_key (l ++ m).
  Proof.
    induction l as [|a l IH]; intros Sl Sm H; [assumption|]. inversion Sl as [|? ? Sl' F]; subst. cbn [app]. constructor; [apply IH; [assumption..|intros; apply H; [now right|assumption]]|].
    apply Forall_app. split; [assumption|]. apply Forall_forall. intros b Hb. apply H; [now left|assumption].
  Qed.
  Lemma groups_by_key (g : Z -> list A) ks : StronglySorted Z.lt ks -> (forall e a, In e ks -> In a (g e) -> key a = e) -> by_key (flat_map g ks).
  Proof.
    induction ks as [|e ks IH]; intros S H; [constructor|]. inversion S as [|? ? S' F]; subst. cbn [flat_map]. apply by_key_app.
    - assert (G : forall a, In a (g e) -> key a = e) by (intros; apply H; [now left|assumption]). clear -G. induction (g e) as [|a l IH]; [constructor|]. constructor; [apply IH; intros; apply G; now right|]. apply Forall_forall. intros b Hb. rewrite (G a), (G b); [lia|now right|now left].
    - apply IH; [assumption|]. intros; apply H; [now right|assumption].
    - intros a b Ha Hb. apply in_flat_map in Hb. destruct Hb as (f & Hf & Hb). rewrite (H e a (or_introl eq_refl) Ha), (H f b (or_intror Hf) Hb). rewrite Forall_forall in F. specialize (F f Hf). lia.
  Qed.
  Lemma group_rows (g : Z -> list A) ks e : NoDup ks -> (forall e a, In e ks -> In a (g e) -> key a = e) -> filter (fun a => Z.eqb (key a) e) (flat_map g ks) = if existsb (Z.eqb e) ks then g e else [].
  Proof.
    induction ks as [|f ks IH]; intros N H; [reflexivity|]. inversion N as [|? ? Nf N']; subst. cbn [flat_map existsb]. rewrite filter_app, IH by (assumption || (intros; apply H; [now right|assumption])).
    destruct (Z.eqb_spec e f) as [->|C].
    - cbn [orb]. assert (existsb (Z.eqb f) ks = false) as ->. { apply not_true_is_false. intros X. apply existsb_exists in X. destruct X as (x & Hx & X). apply Z.eqb_eq in X. subst x. contradiction. }
      rewrite app_nil_r. assert (G : forall a, In a (g f) -> key a = f) by (intros; apply H; [now left|assumption]). clear -G. induction (g f) as [|a l IH]; [reflexivity|]. cbn [filter]. rewrite (G a) by now left. rewrite Z.eqb_refl. f_equal. apply IH. intros; apply G; now right.
    - cbn [orb]. assert (filter (fun a => Z.eqb (key a) e) (g f) = []) as ->; [|reflexivity]. assert (G : forall a, In a (g f) -> key a = f) by (intros; apply H; [now left|assumption]). clear -G C. induction (g f) as [|a l IH]; [reflexivity|]. cbn [filter]. rewrite (G a) by now left.
      destruct (Z.eqb_spec f e); [congruence|]. apply IH. intros; apply G; now right.
  Qed.
End Keyed.
Lemma Sorted_lt_NoDup l : StronglySorted Z.lt l -> NoDup l.
Proof. induction 1 as [|a l S IH F]; constructor; [|assumption]. intros C. rewrite Forall_forall in F. specialize (F a C). lia. Qed.

Lemma tag_fst ms sxy sz hits : map fst (tag_hits_in_event ms sxy sz hits) = hits.
Proof.
  destruct (C77_clusters ms sxy sz hits) as (labels & -> & (L & _)). assert (L' : length (map cluster_number labels) = length hits) by (rewrite map_length; exact L). clear L. revert L'. generalize (map cluster_number labels) as c.
  induction hits as [|h hits IH]; intros [|x c] H; cbn in *; try lia; [reflexivity|]. f_equal. apply IH. lia.
Qed.
Lemma filter_map_swap {A B} (f : A -> B) (p : B -> bool) l : filter p (map f l) = map f (filter (fun a => p (f a)) l).
Proof. induction l as [|a l IH]; [reflexivity|]. cbn. destruct (p (f a)); cbn; now rewrite IH. Qed.
Lemma all_filters_perm {A} (key : A -> Z) l : forall m, (forall e, filter (fun a => Z.eqb (key a) e) l = filter (fun a => Z.eqb (key a) e) m) -> Permutation l m.
Proof.
  induction l as [|a l IH]; intros m H.
  - destruct m as [|b m]; [constructor|]. specialize (H (key b)). cbn in H. rewrite Z.eqb_refl in H. discriminate.
  - pose proof (H (key a)) as Ha. cbn [filter] in Ha. rewrite Z.eqb_refl in Ha.
    assert (exists m1 m2, m = m1 ++ a :: m2 /\ forall b, In b m1 -> key b <> key a) as (m1 & m2 & -> & N).
    { clear -Ha. induction m as [|b m IH]; [discriminate|]. cbn [filter] in Ha. destruct (Z.eqb_spec (key b) (key a)) as [E|E].
      - injection Ha as <- _. exists [], m. split; [reflexivity|]. intros b [].
      - destruct (IH Ha) as (m1 & m2 & -> & N). exists (b :: m1), m2. split; [reflexivity|]. intros c [<-|Hc]; [assumption|auto]. }
    apply Permutation_cons_app. apply IH. intros e. specialize (H e). rewrite filter_app in *. cbn [filter] in H. destruct (Z.eqb_spec (key a) e) as [E|E]; [|exact H]. subst e.
    assert (Z1 : filter (fun x => Z.eqb (key x) (key a)) m1 = []). { clear -N. induction m1 as [|b m1 IH]; [reflexivity|]. cbn. destruct (Z.eqb_spec (key b) (key a)) as [E|E]; [exfalso; apply (N b); [now left|assumption]|]. apply IH. intros; apply N; now right. }
    rewrite Z1 in *. cbn [app] in *. now injection H.
Qed.

(** every hit appears once, with the cluster found among the hits of its event; the order of the rows is kept when the events are in order *)
Theorem C77_tagger min_samples scale_xy scale_z hits : (1 <= min_samples)%Z -> 0 < scale_xy -> 0 < scale_z ->
  exists tagged out, cluster_tagger min_samples scale_xy scale_z hits = Ok out /\
    Permutation (map fst tagged) hits /\
    (forall e, filter (fun r => Z.eqb (th_event (fst r)) e) tagged = tag_hits_in_event min_samples scale_xy scale_z (filter (fun h => Z.eqb (th_event h) e) hits)) /\
    Forall2 (fun r o => snd r = snd o /\ fst o = with_index (fst r) (th_index (fst o))) tagged out /\ map (fun o => th_index (fst o)) out = map th_index hits /\
    (StronglySorted (fun a b => (th_event a <= th_event b)%Z) hits -> out = tagged /\ map fst out = hits).
Proof.
  intros M Sx Sz. destruct (list_eq_dec (fun a b : taghit => ltac:(repeat decide equality)) hits []) as [->|N].
  { exists [], []. split; [reflexivity|]. split; [constructor|]. split; [intros e; reflexivity|]. split; [constructor|]. split; [reflexivity|]. intros _. split; reflexivity. }
  set (g := fun e => tag_hits_in_event min_samples scale_xy scale_z (filter (fun h => Z.eqb (th_event h) e) hits)). set (tagged := flat_map g (event_keys hits)).
  exists tagged, (map2 (fun r h => (with_index (fst r) (th_index h), snd r)) tagged hits). split.
  { unfold cluster_tagger. assert (forall (B : Type) (x y : B), match hits with [] => x | _ => y end = y) as -> by (intros; destruct hits; [congruence|reflexivity]). destruct (Z.ltb_spec min_samples 1); [lia|]. assert (Qeqb scale_xy 0 = false) as -> by (apply Qeqb_neq; lra). assert (Qeqb scale_z 0 = false) as -> by (apply Qeqb_neq; lra). reflexivity. }
  set (key := fun r : taghit * Z => th_event (fst r)).
  assert (G : forall e a, In a (g e) -> key a = e).
  { intros e a Ha. assert (H : In (fst a) (map fst (g e))) by now apply in_map. unfold g in H. rewrite tag_fst in H. apply filter_In in H. now apply Z.eqb_eq. }
  assert (R : forall e, filter (fun r => Z.eqb (key r) e) tagged = g e).
  { intros e. unfold tagged. rewrite (group_rows key g) by (intros; try apply G; try assumption; apply Sorted_lt_NoDup, keys_sorted). destruct (existsb (Z.eqb e) (event_keys hits)) eqn:X; [reflexivity|]. unfold g.
    assert (filter (fun h => Z.eqb (th_event h) e) hits = []) as ->; [|reflexivity]. destruct (filter (fun h => Z.eqb (th_event h) e) hits) as [|h l] eqn:F; [reflexivity|]. exfalso. assert (H : In h (filter (fun h => Z.eqb (th_event h) e) hits)) by (rewrite F; now left).
    apply filter_In in H. destruct H as [H1 H2]. apply Z.eqb_eq in H2. assert (existsb (Z.eqb e) (event_keys hits) = true); [|congruence]. apply existsb_exists. exists e. split; [|apply Z.eqb_refl]. apply keys_in. rewrite <- H2. now apply in_map. }
  assert (T : forall e, filter (fun h => Z.eqb (th_event h) e) (map fst tagged) = filter (fun h => Z.eqb (th_event h) e) hits).
  { intros e. rewrite filter_map_swap. change (map fst (filter (fun r => Z.eqb (key r) e) tagged) = filter (fun h => Z.eqb (th_event h) e) hits). rewrite R. unfold g. apply tag_fst. }
  assert (P : Permutation (map fst tagged) hits) by (apply (all_filters_perm th_event); exact T).
  assert (L : length tagged = length hits) by (rewrite <- (map_length fst tagged); now apply Permutation_length).
  assert (B : by_key key tagged) by (apply groups_by_key; [apply keys_sorted|intros; now apply G]).
  split; [exact P|]. split; [exact R|]. clear P R G N. clearbody tagged. clear g.
  assert (F2 : Forall2 (fun r o => snd r = snd o /\ fst o = with_index (fst r) (th_index (fst o))) tagged (map2 (fun r h => (with_index (fst r) (th_index h), snd r)) tagged hits)).
  { clear -L. revert hits L. induction tagged as [|r t IH]; intros [|h hs] L; cbn in *; try lia; [constructor|]. constructor; [split; reflexivity|apply IH; lia]. }
  split; [exact F2|]. split.
  { clear -L. revert hits L. induction tagged as [|r t IH]; intros [|h hs] L; cbn in *; try lia; [reflexivity|]. f_equal. apply IH. lia. }
  intros S. assert (E : map fst tagged = hits).
  { apply (same_rows th_event); [|exact S|exact T]. clear -B. unfold by_key in *. induction B as [|r l S IH F]; cbn [map]; [constructor|]. constructor; [assumption|]. rewrite Forall_forall in *. intros h Hh. apply in_map_iff in Hh. destruct Hh as (r' & <- & Hr). now apply F. }
  assert (E2 : map2 (fun r h => (with_index (fst r) (th_index h), snd r)) tagged hits = tagged).
  { clear -E. revert hits E. induction tagged as [|[h c] t IH]; intros hits E; cbn [map] in E; subst hits; [reflexivity|]. cbn [map2]. rewrite IH by reflexivity. destruct h. reflexivity. }
  rewrite E2. split; [reflexivity|exact E].
Qed.
Print Assumptions C77_tagger.

(** finding: when the events are mixed, the index of the output is that of other hits *)
Definition hit_at (i e : Z) (x : Q) : taghit := {| th_index := i; th_event := e; th_x := x; th_y := 0; th_z := 0; th_data := i |}.
Theorem C77_index_refuted : cluster_tagger 1 1 1 [hit_at 0 2 0; hit_at 1 1 0; hit_at 2 2 5] = Ok [(with_index (hit_at 1 1 0) 0, 0%Z); (with_index (hit_at 0 2 0) 1, 0%Z); (hit_at 2 2 5, 1%Z)].
Proof. vm_compute. reflexivity. Qed.
(** two clusters and a lonely hit; the hit at 3.25 is close to both clusters, not dense, and goes to the first *)
Example C77_example : cluster_tagger 4 1 1 [hit_at 0 7 5; hit_at 1 7 6; hit_at 2 7 (13 # 2); hit_at 3 7 6; hit_at 4 7 0; hit_at 5 7 1; hit_at 6 7 (3 # 2); hit_at 7 7 1; hit_at 8 7 (13 # 4); hit_at 9 7 20] =
  Ok [(hit_at 0 7 5, 0%Z); (hit_at 1 7 6, 0%Z); (hit_at 2 7 (13 # 2), 0%Z); (hit_at 3 7 6, 0%Z); (hit_at 4 7 0, 1%Z); (hit_at 5 7 1, 1%Z); (hit_at 6 7 (3 # 2), 1%Z); (hit_at 7 7 1, 1%Z); (hit_at 8 7 (13 # 4), 0%Z); (hit_at 9 7 20, (-1)%Z)].
Proof. vm_compute. reflexivity. Qed.
Print Assumptions C77_index_refuted.
