(** Lemmas for C13 *)
From Verif Require Import Base PeaksModel PeaksProofs BuffersModel PmapioModel PmapioSpec.
From Coq Require Import Sorted.
Local Open Scope nat_scope.

(** rows of one key in a concatenation *)
Lemma filter_none_in {A} (p : A -> bool) l : (forall a, In a l -> p a = false) -> filter p l = [].
Proof. induction l as [|a l IH]; cbn; intros H; [reflexivity|]. rewrite H by now left. apply IH. intros; apply H; now right. Qed.
Lemma filter_all_in {A} (p : A -> bool) l : (forall a, In a l -> p a = true) -> filter p l = l.
Proof. induction l as [|a l IH]; cbn; intros H; [reflexivity|]. rewrite H by now left. f_equal. apply IH. intros; apply H; now right. Qed.
Lemma filter_flat_map {A B} (p : B -> bool) (f : A -> list B) l : filter p (flat_map f l) = flat_map (fun a => filter p (f a)) l.
Proof. induction l as [|a l IH]; cbn; [reflexivity|]. now rewrite filter_app, IH. Qed.
Lemma flat_map_none {A B} (f : A -> list B) l : (forall b, In b l -> f b = []) -> flat_map f l = [].
Proof. induction l as [|a l IH]; cbn; intros H; [reflexivity|]. rewrite H by now left. apply IH. intros; apply H; now right. Qed.
Lemma flat_map_unique {A B K} (key : A -> K) (f : A -> list B) l a : NoDup (map key l) -> In a l ->
  (forall b, In b l -> key b <> key a -> f b = []) -> flat_map f l = f a.
Proof.
  induction l as [|b l IH]; cbn; intros N Hin H; [easy|]. inversion N as [|? ? N1 N2]; subst. destruct Hin as [->|Hin].
  - rewrite (flat_map_none f l); [now rewrite app_nil_r|]. intros c Hc. apply H; [now right|]. intros C. apply N1. rewrite <- C. now apply in_map.
  - rewrite (H b); [cbn|now left|intros C; apply N1; rewrite C; now apply in_map]. apply IH; [assumption..|]. intros x Hx. apply H. now right.
Qed.

(** writing *)
Definition number (k : nat) : nat := overflow_protection k u16max.
Definition sums_of (f32 : Q -> Q) (ev : Z) (kp : nat * peak) : list sum_row :=
  map (fun i => {| s_event := ev; s_peak := number (fst kp); s_time := f32 (nth i (p_times (snd kp)) 0%Q);
                   s_bwidth := f32 (nth i (p_widths (snd kp)) 0%Q); s_ene := f32 (nth i (pmt_sum (snd kp)) 0%Q) |})
      (seq 0 (length (p_times (snd kp)))).
Definition sensors_of (f32 : Q -> Q) (ev : Z) (k : nat) (r : responses) : list sensor_row :=
  flat_map (fun iw => map (fun e => {| r_event := ev; r_peak := number k; r_sensor := fst iw; r_ene := f32 e |}) (snd iw)) (combine (r_ids r) (rows (r_wfs r))).

Lemma rmap_all {A B} (f : A -> result B) (g : A -> B) l : (forall a, In a l -> f a = Ok (g a)) -> rmap f l = Ok (map g l).
Proof. induction l as [|a l IH]; cbn; intros H; [reflexivity|]. rewrite H by now left. cbn. rewrite IH by (intros; apply H; now right). reflexivity. Qed.
Lemma nth_error_nth_in {A} (l : list A) i d : i < length l -> nth_error l i = Some (nth i l d).
Proof. revert i; induction l as [|a l IH]; intros [|i] H; cbn in *; try lia; [reflexivity|]. apply IH. lia. Qed.

Lemma sum_rows_ok f32 p n ev : length (p_widths p) = length (p_times p) -> sensors_ok (length (p_times p)) (p_pmts p) ->
  sum_rows f32 p n ev = Ok (sums_of f32 ev (n, p)).
Proof.
  intros Hw S. unfold sum_rows, sums_of. apply rmap_all. intros i Hi. apply in_seq in Hi. cbn [snd fst] in *.
  assert (Hs : length (pmt_sum p) = length (p_times p)) by (unfold pmt_sum, sum_over_sensors; rewrite map_length, seq_length; apply (ok_cols _ _ S)).
  rewrite (nth_error_nth_in (p_times p) i 0%Q), (nth_error_nth_in (p_widths p) i 0%Q), (nth_error_nth_in (pmt_sum p) i 0%Q) by lia. reflexivity.
Qed.

Lemma combine_fst {A B} (l : list A) (m : list B) : length l = length m -> map fst (combine l m) = l.
Proof. revert m; induction l as [|a l IH]; intros [|b m] H; cbn in *; try lia; [reflexivity|]. f_equal. apply IH. lia. Qed.
Lemma combine_snd {A B} (l : list A) (m : list B) : length l = length m -> map snd (combine l m) = m.
Proof. revert m; induction l as [|a l IH]; intros [|b m] H; cbn in *; try lia; [reflexivity|]. f_equal. apply IH. lia. Qed.

Lemma waveform_in (ids : list nat) (ws : list (list Q)) i w : NoDup ids -> length ws = length ids -> In (i, w) (combine ids ws) ->
  find (fun p => fst p =? i) (rev (combine ids ws)) = Some (i, w).
Proof.
  intros N L Hin. assert (Nc : NoDup (map fst (combine ids ws))).
  { rewrite combine_fst by lia. assumption. }
  apply NoDup_rev in Nc. rewrite <- map_rev in Nc. apply in_rev in Hin. revert Nc Hin. generalize (rev (combine ids ws)). intros l Nc Hin.
  induction l as [|[j v] l IH]; [easy|]. cbn [find fst]. cbn in Nc. inversion Nc as [|? ? N1 N2]; subst. destruct (Nat.eqb_spec j i) as [->|Hj].
  - destruct Hin as [E|Hin]; [congruence|]. exfalso. apply N1. apply in_map_iff. exists (i, w). auto.
  - destruct Hin as [E|Hin]; [congruence|]. auto.
Qed.

Lemma rmap_map {A B C} (f : B -> result C) (g : A -> B) l : rmap f (map g l) = rmap (fun a => f (g a)) l.
Proof. induction l as [|a l IH]; cbn; [reflexivity|]. now rewrite IH. Qed.
Lemma rmap_ext_in {A B} (f g : A -> result B) l : (forall a, In a l -> f a = g a) -> rmap f l = rmap g l.
Proof. induction l as [|a l IH]; cbn; intros H; [reflexivity|]. rewrite H by now left. rewrite IH by (intros; apply H; now right). reflexivity. Qed.

Lemma sensor_rows_ok f32 r n ev : NoDup (r_ids r) -> length (rows (r_wfs r)) = length (r_ids r) -> sensor_rows f32 r n ev = Ok (sensors_of f32 ev n r).
Proof.
  intros N L. unfold sensor_rows, sensors_of. rewrite <- (combine_fst (r_ids r) (rows (r_wfs r))) at 1 by lia. rewrite rmap_map.
  rewrite (rmap_all _ (fun iw => map (fun e => {| r_event := ev; r_peak := number n; r_sensor := fst iw; r_ene := f32 e |}) (snd iw))).
  - cbn [rbind]. now rewrite flat_map_concat_map.
  - intros [i w] Hin. unfold waveform. cbn [fst snd]. rewrite (waveform_in _ _ i w) by (try assumption; lia). reflexivity.
Qed.

Definition numbered {A} (n : nat) (l : list A) : list (nat * A) := combine (seq n (length l)) l.
Definition sum_table (f32 : Q -> Q) (sel : pmap -> list peak) (l : list (Z * pmap)) : list sum_row :=
  flat_map (fun e => flat_map (sums_of f32 (fst e)) (numbered 0 (sel (snd e)))) l.
Definition sensor_table (f32 : Q -> Q) (sel : pmap -> list peak) (resp : peak -> responses) (l : list (Z * pmap)) : list sensor_row :=
  flat_map (fun e => flat_map (fun kp => sensors_of f32 (fst e) (fst kp) (resp (snd kp))) (numbered 0 (sel (snd e)))) l.

Lemma store_s1s_ok f32 ev l : (forall p, In p l -> s1_ok p) -> forall t n,
  store_s1s f32 t l n ev = Ok {| t_s1 := t_s1 t ++ flat_map (sums_of f32 ev) (numbered n l); t_s2 := t_s2 t; t_si := t_si t;
    t_s1pmt := t_s1pmt t ++ flat_map (fun kp => sensors_of f32 ev (fst kp) (p_pmts (snd kp))) (numbered n l); t_s2pmt := t_s2pmt t |}.
Proof.
  induction l as [|p l IH]; intros H t n; cbn [store_s1s].
  - unfold numbered. cbn. rewrite !app_nil_r. now destruct t.
  - destruct (H p (or_introl eq_refl)) as (H1 & H2 & H3 & H4). rewrite (sum_rows_ok _ _ _ _ H2 H3). cbn [rbind]. rewrite (sensor_rows_ok _ _ _ _ (ok_ids _ _ H3) (ok_rows _ _ H3)). cbn [rbind].
    rewrite IH by (intros; apply H; now right). cbn [t_s1 t_s2 t_si t_s1pmt t_s2pmt]. unfold numbered. cbn [length seq combine flat_map fst snd]. now rewrite <- !app_assoc.
Qed.
Lemma s2_sipms p : s2_ok p -> NoDup (r_ids (p_sipms p)) /\ forall f32 n ev, sensor_rows f32 (p_sipms p) n ev = Ok (sensors_of f32 ev n (p_sipms p)).
Proof.
  intros (_ & _ & _ & [E|S]).
  - split; [rewrite E; constructor|]. intros. unfold sensor_rows, sensors_of. rewrite E. reflexivity.
  - split; [apply (ok_ids _ _ S)|]. intros. apply sensor_rows_ok; [apply (ok_ids _ _ S)|apply (ok_rows _ _ S)].
Qed.
Lemma store_s2s_ok f32 ev l : (forall p, In p l -> s2_ok p) -> forall t n,
  store_s2s f32 t l n ev = Ok {| t_s1 := t_s1 t; t_s2 := t_s2 t ++ flat_map (sums_of f32 ev) (numbered n l);
    t_si := t_si t ++ flat_map (fun kp => sensors_of f32 ev (fst kp) (p_sipms (snd kp))) (numbered n l);
    t_s1pmt := t_s1pmt t; t_s2pmt := t_s2pmt t ++ flat_map (fun kp => sensors_of f32 ev (fst kp) (p_pmts (snd kp))) (numbered n l) |}.
Proof.
  induction l as [|p l IH]; intros H t n; cbn [store_s2s].
  - unfold numbered. cbn. rewrite !app_nil_r. now destruct t.
  - pose proof (H p (or_introl eq_refl)) as Hp. destruct (s2_sipms p Hp) as [_ Hs]. destruct Hp as (H1 & H2 & H3 & H4). rewrite (sum_rows_ok _ _ _ _ H2 H3). cbn [rbind]. rewrite (sensor_rows_ok _ _ _ _ (ok_ids _ _ H3) (ok_rows _ _ H3)). cbn [rbind].
    rewrite Hs. cbn [rbind]. rewrite IH by (intros; apply H; now right). cbn [t_s1 t_s2 t_si t_s1pmt t_s2pmt]. unfold numbered. cbn [length seq combine flat_map fst snd]. now rewrite <- !app_assoc.
Qed.
Lemma store_pmaps_ok f32 l : (forall ev pm, In (ev, pm) l -> pmap_ok pm) -> forall t,
  store_pmaps f32 t l = Ok {| t_s1 := t_s1 t ++ sum_table f32 s1s l; t_s2 := t_s2 t ++ sum_table f32 s2s l;
    t_si := t_si t ++ sensor_table f32 s2s p_sipms l; t_s1pmt := t_s1pmt t ++ sensor_table f32 s1s p_pmts l; t_s2pmt := t_s2pmt t ++ sensor_table f32 s2s p_pmts l |}.
Proof.
  induction l as [|[ev pm] l IH]; intros H t; cbn [store_pmaps].
  - unfold sum_table, sensor_table. cbn. rewrite !app_nil_r. now destruct t.
  - destruct (H ev pm (or_introl eq_refl)) as (A1 & A2 & _). unfold store_pmap. rewrite (store_s1s_ok _ _ _ A1). cbn [rbind]. rewrite (store_s2s_ok _ _ _ A2). cbn [rbind].
    rewrite IH by (intros; eapply H; right; eassumption). cbn [t_s1 t_s2 t_si t_s1pmt t_s2pmt]. unfold sum_table, sensor_table. cbn [flat_map fst snd]. now rewrite <- !app_assoc.
Qed.

(** reading *)
Lemma sums_event f32 ev kp r : In r (sums_of f32 ev kp) -> s_event r = ev /\ s_peak r = number (fst kp).
Proof. unfold sums_of. intros H. apply in_map_iff in H. destruct H as (i & <- & _). auto. Qed.
Lemma sensors_event f32 ev k rs r : In r (sensors_of f32 ev k rs) -> r_event r = ev /\ r_peak r = number k.
Proof. unfold sensors_of. intros H. apply in_flat_map in H. destruct H as (iw & _ & H). apply in_map_iff in H. destruct H as (e & <- & _). auto. Qed.

Lemma event_sums f32 sel l ev pm : NoDup (map fst l) -> In (ev, pm) l ->
  of_event_s ev (sum_table f32 sel l) = flat_map (sums_of f32 ev) (numbered 0 (sel pm)).
Proof.
  intros N Hin. unfold of_event_s, sum_table. rewrite filter_flat_map. rewrite (flat_map_unique fst _ l (ev, pm) N Hin).
  - cbn [fst snd]. apply filter_all_in. intros r Hr. apply in_flat_map in Hr. destruct Hr as (kp & _ & Hr). apply sums_event in Hr. apply Z.eqb_eq. tauto.
  - intros [ev' pm'] _ Hk. cbn [fst snd] in *. apply filter_none_in. intros r Hr. apply in_flat_map in Hr. destruct Hr as (kp & _ & Hr). apply sums_event in Hr. apply Z.eqb_neq. destruct Hr as [-> _]. assumption.
Qed.
Lemma event_sensors f32 sel resp l ev pm : NoDup (map fst l) -> In (ev, pm) l ->
  of_event_r ev (sensor_table f32 sel resp l) = flat_map (fun kp => sensors_of f32 ev (fst kp) (resp (snd kp))) (numbered 0 (sel pm)).
Proof.
  intros N Hin. unfold of_event_r, sensor_table. rewrite filter_flat_map. rewrite (flat_map_unique fst _ l (ev, pm) N Hin).
  - cbn [fst snd]. apply filter_all_in. intros r Hr. apply in_flat_map in Hr. destruct Hr as (kp & _ & Hr). apply sensors_event in Hr. apply Z.eqb_eq. tauto.
  - intros [ev' pm'] _ Hk. cbn [fst snd] in *. apply filter_none_in. intros r Hr. apply in_flat_map in Hr. destruct Hr as (kp & _ & Hr). apply sensors_event in Hr. apply Z.eqb_neq. destruct Hr as [-> _]. assumption.
Qed.

Lemma in_numbered {A} (l : list A) n k a : In (k, a) (numbered n l) <-> n <= k /\ nth_error l (k - n) = Some a.
Proof.
  unfold numbered. revert n; induction l as [|b l IH]; intros n; cbn [length seq combine In].
  - split; [easy|]. intros [_ H]. destruct (k - n); discriminate.
  - rewrite IH. split.
    + intros [E|[H1 H2]]; [injection E as -> ->; rewrite Nat.sub_diag; auto|]. split; [lia|]. replace (k - n) with (S (k - S n)) by lia. assumption.
    + intros [H1 H2]. destruct (Nat.eq_dec k n) as [->|]; [rewrite Nat.sub_diag in H2; injection H2 as <-; now left|]. right. split; [lia|]. replace (k - n) with (S (k - S n)) in H2 by lia. assumption.
Qed.
Lemma numbered_keys {A} (l : list A) n : map fst (numbered n l) = seq n (length l).
Proof. unfold numbered. apply combine_fst. now rewrite seq_length. Qed.
Lemma number_small k : (N.of_nat k < 65536)%N -> number k = k.
Proof. intros H. unfold number, overflow_protection. destruct (Nat.ltb_spec u16max k); [unfold u16max in *; lia|reflexivity]. Qed.

Lemma peak_sums f32 ev l k p : (N.of_nat (length l) <= 65536)%N -> nth_error l k = Some p ->
  of_peak_s k (flat_map (sums_of f32 ev) (numbered 0 l)) = sums_of f32 ev (k, p).
Proof.
  intros B E. unfold of_peak_s. rewrite filter_flat_map. assert (Hk : k < length l) by (apply nth_error_Some; congruence).
  rewrite (flat_map_unique fst _ _ (k, p)).
  - apply filter_all_in. intros r Hr. apply sums_event in Hr. apply Nat.eqb_eq. cbn [fst] in Hr. rewrite number_small in Hr by lia. tauto.
  - rewrite numbered_keys. apply seq_NoDup.
  - apply in_numbered. rewrite Nat.sub_0_r. split; [lia|assumption].
  - intros [k' p'] Hin Hk'. cbn [fst] in Hk'. apply in_numbered in Hin. rewrite Nat.sub_0_r in Hin. destruct Hin as [_ Hin]. assert (k' < length l) by (apply nth_error_Some; congruence).
    apply filter_none_in. intros r Hr. apply sums_event in Hr. cbn [fst] in Hr. rewrite number_small in Hr by lia. apply Nat.eqb_neq. destruct Hr as [_ ->]. assumption.
Qed.
Lemma peak_sensors f32 resp ev (l : list peak) k p : (N.of_nat (length l) <= 65536)%N -> nth_error l k = Some p ->
  of_peak_r k (flat_map (fun kp => sensors_of f32 ev (fst kp) (resp (snd kp))) (numbered 0 l)) = sensors_of f32 ev k (resp p).
Proof.
  intros B E. unfold of_peak_r. rewrite filter_flat_map. assert (Hk : k < length l) by (apply nth_error_Some; congruence).
  rewrite (flat_map_unique fst _ _ (k, p)).
  - apply filter_all_in. intros r Hr. apply sensors_event in Hr. apply Nat.eqb_eq. cbn [fst] in Hr. rewrite number_small in Hr by lia. tauto.
  - rewrite numbered_keys. apply seq_NoDup.
  - apply in_numbered. rewrite Nat.sub_0_r. split; [lia|assumption].
  - intros [k' p'] Hin Hk'. cbn [fst] in Hk'. apply in_numbered in Hin. rewrite Nat.sub_0_r in Hin. destruct Hin as [_ Hin]. assert (k' < length l) by (apply nth_error_Some; congruence).
    apply filter_none_in. intros r Hr. apply sensors_event in Hr. cbn [fst] in Hr. rewrite number_small in Hr by lia. apply Nat.eqb_neq. destruct Hr as [_ ->]. assumption.
Qed.

(** sets of numbers *)
Lemma insert_id_in i l j : In j (insert_id i l) <-> j = i \/ In j l.
Proof.
  induction l as [|a l IH]; cbn [insert_id]; [cbn; intuition|]. destruct (Nat.ltb_spec i a); [cbn; intuition|]. destruct (Nat.eqb_spec i a); [subst; cbn; intuition|]. cbn [In]. rewrite IH. intuition.
Qed.
Lemma insert_id_sorted i l : StronglySorted lt l -> StronglySorted lt (insert_id i l).
Proof.
  induction 1 as [|a l Hs IH F]; cbn [insert_id]; [repeat constructor|]. destruct (Nat.ltb_spec i a).
  - constructor; [constructor; assumption|]. constructor; [assumption|]. rewrite Forall_forall in *. intros x Hx. specialize (F x Hx). lia.
  - destruct (Nat.eqb_spec i a); [constructor; assumption|]. constructor; [assumption|]. rewrite Forall_forall in *. intros x Hx. apply insert_id_in in Hx. destruct Hx as [->|Hx]; [lia|auto].
Qed.
Lemma set_sorted l : StronglySorted lt (fold_right insert_id [] l) /\ forall x, In x (fold_right insert_id [] l) <-> In x l.
Proof.
  induction l as [|a l [IH1 IH2]]; cbn [fold_right]; [split; [constructor|reflexivity]|]. split; [now apply insert_id_sorted|]. intros x. rewrite insert_id_in, IH2. cbn. intuition.
Qed.
Lemma sorted_ext l m : StronglySorted lt l -> StronglySorted lt m -> (forall x, In x l <-> In x m) -> l = m.
Proof.
  intros Hl. revert m. induction Hl as [|a l Hl IH F]; intros m Hm E.
  - destruct m as [|b m]; [reflexivity|]. exfalso. apply (E b). now left.
  - destruct Hm as [|b m Hm G]; [exfalso; apply (E a); now left|]. rewrite Forall_forall in *.
    assert (a = b) as <-.
    { destruct (proj1 (E a) (or_introl eq_refl)) as [->|Ha]; [reflexivity|]. destruct (proj2 (E b) (or_introl eq_refl)) as [->|Hb]; [reflexivity|]. specialize (F b Hb). specialize (G a Ha). lia. }
    f_equal. apply IH; [assumption|]. intros x. split; intros Hx.
    + destruct (proj1 (E x) (or_intror Hx)) as [->|]; [specialize (F x Hx); lia|assumption].
    + destruct (proj2 (E x) (or_intror Hx)) as [->|]; [specialize (G x Hx); lia|assumption].
Qed.
Lemma seq_sorted n k : StronglySorted lt (seq k n).
Proof. revert k; induction n as [|n IH]; intros k; cbn; constructor; [apply IH|]. rewrite Forall_forall. intros x Hx. apply in_seq in Hx. lia. Qed.

Lemma all_peak_numbers f32 ev l : (N.of_nat (length l) <= 65536)%N -> (forall p, In p l -> p_times p <> []) ->
  peak_numbers (flat_map (sums_of f32 ev) (numbered 0 l)) = seq 0 (length l).
Proof.
  intros B H. unfold peak_numbers. destruct (set_sorted (map s_peak (flat_map (sums_of f32 ev) (numbered 0 l)))) as [S1 S2].
  apply sorted_ext; [assumption|apply seq_sorted|]. intros x. rewrite S2, in_map_iff, in_seq. split.
  - intros (r & <- & Hr). apply in_flat_map in Hr. destruct Hr as ([k p] & Hk & Hr). apply sums_event in Hr. apply in_numbered in Hk. rewrite Nat.sub_0_r in Hk. destruct Hk as [_ Hk].
    assert (k < length l) by (apply nth_error_Some; congruence). destruct Hr as [_ ->]. cbn [fst]. rewrite number_small by lia. lia.
  - intros [_ Hx]. destruct (nth_error l x) as [p|] eqn:E; [|apply nth_error_None in E; lia].
    assert (Hp : p_times p <> []) by (apply H; eapply nth_error_In; eassumption).
    destruct (sums_of f32 ev (x, p)) as [|r rs] eqn:Es.
    + exfalso. apply Hp. apply (f_equal (@length _)) in Es. unfold sums_of in Es. rewrite map_length, seq_length in Es. cbn in Es. now destruct (p_times p).
    + assert (Hr : In r (sums_of f32 ev (x, p))) by (rewrite Es; now left). exists r. split.
      * apply sums_event in Hr. cbn [fst] in Hr. rewrite number_small in Hr by lia. tauto.
      * apply in_flat_map. exists (x, p). split; [|assumption]. apply in_numbered. rewrite Nat.sub_0_r. split; [lia|assumption].
Qed.

Lemma map_nth_seq {A B} (g : A -> B) l d : map (fun i => g (nth i l d)) (seq 0 (length l)) = map g l.
Proof.
  rewrite <- (map_map (fun i => nth i l d) g). f_equal. induction l as [|a l IH]; [reflexivity|]. cbn [length seq map nth]. f_equal. rewrite <- seq_shift, map_map. exact IH.
Qed.

Lemma unique_repeat seen a n l : 0 < n -> ~ In a seen -> unique_from seen (repeat a n ++ l) = a :: unique_from (a :: seen) l.
Proof.
  intros Hn Ha. destruct n as [|n]; [lia|]. cbn [repeat app unique_from].
  assert (E : existsb (Nat.eqb a) seen = false).
  { apply not_true_is_false. intros C. apply existsb_exists in C. destruct C as (x & Hx & Ex). apply Nat.eqb_eq in Ex. now subst. }
  rewrite E. f_equal. clear Hn. induction n as [|n IH]; [reflexivity|]. cbn [repeat app unique_from existsb]. rewrite Nat.eqb_refl. exact IH.
Qed.
Lemma unique_sensors (f : nat -> Q -> sensor_row) n ids : 0 < n -> (forall i e, r_sensor (f i e) = i) -> forall ws seen,
  NoDup ids -> (forall i, In i ids -> ~ In i seen) -> length ws = length ids -> Forall (fun w => length w = n) ws ->
  unique_from seen (map r_sensor (flat_map (fun iw => map (f (fst iw)) (snd iw)) (combine ids ws))) = ids.
Proof.
  intros Hn Hf. induction ids as [|i ids IH]; intros [|w ws] seen N D L F; cbn in L; try lia; [reflexivity|]. cbn [combine flat_map fst snd]. rewrite map_app, map_map.
  inversion F as [|? ? F1 F2]; subst. inversion N as [|? ? N1 N2]; subst.
  assert (E : map (fun x => r_sensor (f i x)) w = repeat i (length w)) by (clear -Hf; induction w as [|e w IH]; [reflexivity|]; cbn; now rewrite Hf, IH).
  rewrite E, unique_repeat by (try assumption; apply D; now left). f_equal. apply IH; [assumption..| |lia|assumption]. intros j Hj [<-|Hs]; [contradiction|]. apply (D j); [now right|assumption].
Qed.

Lemma chunks_concat n ws : Forall (fun w => length w = n) ws -> chunks (length ws) n (concat ws) = ws.
Proof.
  induction 1 as [|w ws Hw Hf IH]; [reflexivity|]. cbn [length chunks concat]. rewrite <- Hw at 1 3. rewrite firstn_app, Nat.sub_diag, firstn_all, firstn_O, app_nil_r.
  rewrite skipn_app, skipn_all, Nat.sub_diag. cbn. now rewrite IH.
Qed.
Lemma length_concat_n {A} n (ws : list (list A)) : Forall (fun w => length w = n) ws -> length (concat ws) = length ws * n.
Proof. induction 1 as [|w ws Hw Hf IH]; [reflexivity|]. cbn. rewrite app_length, IH, Hw. lia. Qed.

Lemma sensors_ene f32 ev k r : length (rows (r_wfs r)) = length (r_ids r) -> map r_ene (sensors_of f32 ev k r) = concat (map (map f32) (rows (r_wfs r))).
Proof.
  intros L. unfold sensors_of. rewrite flat_map_concat_map, concat_map, map_map. f_equal. rewrite <- (combine_snd (r_ids r) (rows (r_wfs r))) at 2 by lia. rewrite map_map. apply map_ext. intros [i w]. cbn [fst snd]. rewrite map_map. reflexivity.
Qed.
Lemma sensors_ids f32 ev k r n : 0 < n -> sensors_ok n r -> unique (map r_sensor (sensors_of f32 ev k r)) = r_ids r.
Proof.
  intros Hn [S1 S2 S3 S4]. unfold unique, sensors_of. apply (unique_sensors (fun i e => {| r_event := ev; r_peak := number k; r_sensor := i; r_ene := f32 e |}) n); try assumption; [reflexivity|easy].
Qed.

Lemma pmt_responses_back f32 ev k p : p_times p <> [] -> length (p_widths p) = length (p_times p) -> sensors_ok (length (p_times p)) (p_pmts p) ->
  build_pmt_responses (sums_of f32 ev (k, p)) (sensors_of f32 ev k (p_pmts p)) =
  Ok (map f32 (p_times p), map f32 (p_widths p), round_responses f32 (p_pmts p)).
Proof.
  intros Ht Hw S. pose proof S as [S1 S2 S3 S4]. unfold build_pmt_responses. assert (Hn : 0 < length (p_times p)) by (destruct (p_times p); [easy|cbn; lia]). rewrite (sensors_ids _ _ _ _ (length (p_times p))) by assumption.
  assert (L : length (sums_of f32 ev (k, p)) = length (p_times p)) by (unfold sums_of; now rewrite map_length, seq_length). rewrite L.
  rewrite sensors_ene by assumption. unfold reshape.
  assert (F : Forall (fun w => length w = length (p_times p)) (map (map f32) (rows (r_wfs (p_pmts p))))).
  { rewrite Forall_map. eapply Forall_impl; [|exact S3]. intros a Ha. cbn. now rewrite map_length. }
  rewrite (length_concat_n _ _ F), map_length, S2, Nat.eqb_refl. cbn [rbind]. replace (length (r_ids (p_pmts p))) with (length (map (map f32) (rows (r_wfs (p_pmts p))))) at 1 by (rewrite map_length; lia).
  rewrite (chunks_concat _ _ F). unfold mk_responses. cbn [rows]. rewrite map_length, S2, Nat.eqb_refl. cbn [negb rbind].
  unfold sums_of. cbn [snd fst]. rewrite !map_map. cbn [s_time s_bwidth]. rewrite map_nth_seq. rewrite <- Hw, map_nth_seq. unfold round_responses. rewrite S4, Hw. reflexivity.
Qed.

Lemma sipm_responses_back f32 ev k p : s2_ok p ->
  build_sipm_responses (sensors_of f32 ev k (p_sipms p)) = Ok (match r_ids (p_sipms p) with [] => empty_responses | _ => round_responses f32 (p_sipms p) end).
Proof.
  intros (Ht & _ & _ & [E|S]).
  - unfold sensors_of. rewrite E. reflexivity.
  - pose proof S as [S1 S2 S3 S4]. destruct (r_ids (p_sipms p)) as [|i0 ids] eqn:Ei; [unfold sensors_of; rewrite Ei; reflexivity|].
    assert (Hn : 0 < length (p_times p)) by (destruct (p_times p); [easy|cbn; lia]).
    assert (F : Forall (fun w => length w = length (p_times p)) (map (map f32) (rows (r_wfs (p_sipms p))))).
    { rewrite Forall_map. eapply Forall_impl; [|exact S3]. intros a Ha. cbn. now rewrite map_length. }
    assert (Le : length (sensors_of f32 ev k (p_sipms p)) = length (r_ids (p_sipms p)) * length (p_times p)).
    { rewrite <- (map_length r_ene), sensors_ene by congruence. rewrite (length_concat_n _ _ F), map_length. congruence. }
    unfold build_sipm_responses. rewrite (sensors_ids _ _ _ _ (length (p_times p))) by assumption. rewrite sensors_ene by congruence. rewrite Le.
    destruct (sensors_of f32 ev k (p_sipms p)) as [|r rs] eqn:Es; [rewrite Ei in Le; cbn [length] in Le; lia|]. clear Es.
    rewrite Nat.mul_comm, Nat.div_mul by (rewrite Ei; discriminate). unfold reshape. rewrite (length_concat_n _ _ F), map_length, S2, Ei, Nat.eqb_refl. cbn [rbind].
    replace (length (i0 :: ids)) with (length (map (map f32) (rows (r_wfs (p_sipms p))))) at 1 by (rewrite map_length; lia).
    rewrite (chunks_concat _ _ F). unfold mk_responses. cbn [rows]. rewrite map_length, S2, Nat.eqb_refl. cbn [negb]. unfold round_responses. rewrite Ei, S4. reflexivity.
Qed.

Lemma mk_peak_ok t w r s n : length t = n -> 0 < n -> cols (r_wfs r) = n -> (cols (r_wfs s) = 0 \/ cols (r_wfs s) = n) -> mk_peak t w r s = Ok {| p_times := t; p_widths := w; p_pmts := r; p_sipms := s |}.
Proof.
  intros H1 H2 H3 H4. unfold mk_peak, check_valid_input. cbv zeta. rewrite H1, H3.
  assert (E0 : (n =? 0) = false) by (apply Nat.eqb_neq; lia). rewrite E0, Nat.eqb_refl. cbn [negb orb].
  assert (E : negb (n =? cols (r_wfs s)) && negb (cols (r_wfs s) =? 0) = false) by (destruct H4 as [H4|H4]; rewrite H4, ?Nat.eqb_refl, ?andb_false_r; reflexivity).
  rewrite E. reflexivity.
Qed.

Lemma s1s_back f32 ev l : (forall p, In p l -> s1_ok p) -> (N.of_nat (length l) <= 65536)%N ->
  s1s_from_df (flat_map (sums_of f32 ev) (numbered 0 l)) (flat_map (fun kp => sensors_of f32 ev (fst kp) (p_pmts (snd kp))) (numbered 0 l)) = Ok (map (round_peak f32) l).
Proof.
  intros H B. unfold s1s_from_df. rewrite all_peak_numbers by (try assumption; intros p Hp; apply (H p Hp)).
  destruct l as [|p0 l0]; [reflexivity|]. set (l := p0 :: l0) in *. rewrite <- (map_nth_seq (round_peak f32) l p0). apply rmap_all. intros k Hk. apply in_seq in Hk.
  assert (E : nth_error l k = Some (nth k l p0)) by (apply nth_error_nth_in; lia). rewrite (peak_sums _ _ _ _ _ B E), (peak_sensors _ p_pmts _ _ _ _ B E).
  assert (Hp : s1_ok (nth k l p0)) by (apply H; apply nth_In; lia). destruct Hp as (H1 & H2 & H3 & H4).
  rewrite pmt_responses_back by assumption. cbn [rbind]. rewrite (mk_peak_ok _ _ _ _ (length (p_times (nth k l p0)))).
  - unfold round_peak. rewrite H4. reflexivity.
  - apply map_length.
  - destruct (p_times (nth k l p0)); [easy|cbn; lia].
  - apply H3.
  - left. reflexivity.
Qed.
Lemma s2s_back f32 ev l : (forall p, In p l -> s2_ok p) -> (N.of_nat (length l) <= 65536)%N ->
  s2s_from_df (flat_map (sums_of f32 ev) (numbered 0 l)) (flat_map (fun kp => sensors_of f32 ev (fst kp) (p_pmts (snd kp))) (numbered 0 l))
              (flat_map (fun kp => sensors_of f32 ev (fst kp) (p_sipms (snd kp))) (numbered 0 l)) = Ok (map (round_peak f32) l).
Proof.
  intros H B. unfold s2s_from_df. rewrite all_peak_numbers by (try assumption; intros p Hp; apply (H p Hp)).
  destruct l as [|p0 l0]; [reflexivity|]. set (l := p0 :: l0) in *. rewrite <- (map_nth_seq (round_peak f32) l p0). apply rmap_all. intros k Hk. apply in_seq in Hk.
  assert (E : nth_error l k = Some (nth k l p0)) by (apply nth_error_nth_in; lia). rewrite (peak_sums _ _ _ _ _ B E), (peak_sensors _ p_pmts _ _ _ _ B E), (peak_sensors _ p_sipms _ _ _ _ B E).
  assert (Hp : s2_ok (nth k l p0)) by (apply H; apply nth_In; lia). rewrite (sipm_responses_back _ _ _ _ Hp). destruct Hp as (H1 & H2 & H3 & H4).
  rewrite pmt_responses_back by assumption. cbn [rbind]. rewrite (mk_peak_ok _ _ _ _ (length (p_times (nth k l p0)))).
  - reflexivity.
  - apply map_length.
  - destruct (p_times (nth k l p0)); [easy|cbn; lia].
  - apply H3.
  - destruct H4 as [->|S]; [now left|]. destruct (r_ids (p_sipms (nth k l p0))); [now left|right; apply S].
Qed.
