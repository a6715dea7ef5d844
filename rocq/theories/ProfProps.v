(** C84: binned averages *)
From Verif Require Import Base Arrays PeaksModel PeaksProofs WfmModel WfmProps CorrModel CorrSpec CorrProps DbModel DbProps KmapGrid KmapSpec ProfModel ProfSpec.
From Verif Require BuffersEvent PaolinaDrop TopoTrack.
Local Open Scope Q_scope.

Lemma leb_tot a b : (a <=? b)%nat = true \/ (b <=? a)%nat = true. Proof. rewrite !Nat.leb_le. lia. Qed.
Lemma leb_tr a b c : (a <=? b)%nat = true -> (b <=? c)%nat = true -> (a <=? c)%nat = true. Proof. rewrite !Nat.leb_le. lia. Qed.
Lemma seq_sorted a n : StronglySorted (fun x y => (x <=? y)%nat = true) (seq a n).
Proof. revert a. induction n as [|n IH]; intros a; constructor; [apply IH|]. apply Forall_forall. intros x Hx. apply in_seq in Hx. apply Nat.leb_le. lia. Qed.
Lemma filter_sorted {A} (R : A -> A -> Prop) p l : StronglySorted R l -> StronglySorted R (filter p l).
Proof. induction 1 as [|a l S IH F]; [constructor|]. cbn [filter]. destruct (p a); [|assumption]. constructor; [assumption|]. rewrite Forall_forall in *. intros x Hx. apply filter_In in Hx. now apply F. Qed.
Lemma keys_are {A} (key : A -> nat) rows n : (forall r, In r rows -> (1 <= key r <= n)%nat) ->
  sort_by Nat.leb (nodup Nat.eq_dec (map key rows)) = map S (filter (fun k => existsb (fun r => (key r =? S k)%nat) rows) (seq 0 n)).
Proof.
  intros H. assert (E : map S (filter (fun k => existsb (fun r => (key r =? S k)%nat) rows) (seq 0 n)) = filter (fun k => existsb (fun r => (key r =? k)%nat) rows) (seq 1 n)).
  { rewrite <- seq_shift. generalize (seq 0 n) as l. induction l as [|a l IH]; [reflexivity|]. cbn [map filter]. destruct (existsb (fun r => (key r =? S a)%nat) rows); cbn [map]; now rewrite IH. }
  rewrite E. apply (sort_by_eq Nat.leb leb_tot leb_tr).
  - apply NoDup_Permutation; [apply NoDup_nodup|apply NoDup_filter, seq_NoDup|]. intros k. rewrite nodup_In, in_map_iff, filter_In, in_seq, existsb_exists. split.
    + intros (r & <- & Hr). specialize (H r Hr). split; [lia|]. exists r. now rewrite Nat.eqb_refl.
    + intros (_ & r & Hr & K). exists r. apply Nat.eqb_eq in K. auto.
  - apply filter_sorted, seq_sorted.
  - intros a b _ _. rewrite !Nat.leb_le. lia.
Qed.
Lemma fold_upd_nth {A B} (idx : A -> nat) (v : A -> B) gs init k d : NoDup (map idx gs) -> (forall g, In g gs -> (idx g < length init)%nat) ->
  length (fold_left (fun m g => upd (idx g) (v g) m) gs init) = length init /\
  (forall g, In g gs -> idx g = k -> nth k (fold_left (fun m g => upd (idx g) (v g) m) gs init) d = v g) /\
  ((forall g, In g gs -> idx g <> k) -> nth k (fold_left (fun m g => upd (idx g) (v g) m) gs init) d = nth k init d).
Proof.
  revert init. induction gs as [|g gs IH]; intros init N L; cbn [fold_left map] in *; [split; [reflexivity|split; [intros g []|reflexivity]]|]. apply NoDup_cons_iff in N as [N1 N2]. pose proof (L g (or_introl eq_refl)) as Lg. destruct (IH (upd (idx g) (v g) init) N2) as (I1 & I2 & I3); [intros g' Hg; rewrite length_upd; apply L; now right|]. rewrite length_upd in I1. split; [assumption|]. split.
  - intros g' [<-|Hg] Ek; [|now apply I2]. rewrite I3; [rewrite nth_upd by assumption; now rewrite <- Ek, Nat.eqb_refl|]. intros g' Hg E. apply N1. apply in_map_iff. exists g'. split; [congruence|assumption].
  - intros H. rewrite I3 by (intros g' Hg; apply H; now right). rewrite nth_upd by assumption. specialize (H g (or_introl eq_refl)). destruct (Nat.eqb_spec k (idx g)); [congruence|reflexivity].
Qed.
Lemma in_bin_iff a b n k x : (k < n)%nat -> (is_in_bin a b n k x = true <-> in_bin a b n k x).
Proof. intros H. unfold is_in_bin, in_bin. rewrite andb_true_iff, Qle_bool_iff, Qltb_lt. tauto. Qed.
Lemma in_bin_range a b n k x : in_bin a b n k x -> a <= x /\ x < b.
Proof.
  intros (Hk & H1 & H2). assert (P : 0 < qn n) by (apply qn_pos; lia). set (w := (b - a) / qn n) in *. assert (E : qn n * w == b - a) by (unfold w; field; lra). assert (ES : qn (S k) == qn k + 1) by (unfold qn; rewrite Nat2Z.inj_succ; unfold Z.succ; now rewrite inject_Z_plus). assert (ES' : qn (S k) * w == qn k * w + w) by (rewrite ES; ring).
  assert (W : 0 < w) by lra. assert (K0 : 0 <= qn k) by (unfold qn; change 0 with (inject_Z 0); rewrite <- Zle_Qle; lia). assert (K1 : qn (S k) <= qn n) by (unfold qn; rewrite <- Zle_Qle; lia).
  assert (M1 : 0 * w <= qn k * w) by (apply Qmult_le_compat_r; lra). assert (M2 : qn (S k) * w <= qn n * w) by (apply Qmult_le_compat_r; lra). lra.
Qed.
Definition limits (r : option (Q * Q)) (y : Q) : bool := match r with None => true | Some r => in_range y (fst r) (snd r) end.
Lemma limits_iff r y : limits r y = true <-> in_limits r y.
Proof. destruct r as [[a b]|]; cbn; [|tauto]. unfold in_range. cbn [fst snd]. now rewrite andb_true_iff, Qle_bool_iff, Qltb_lt. Qed.
Lemma limits_filter {A} (f : A -> Q) r (rows : list A) : match r with None => rows | Some y => filter (fun p => in_range (f p) (fst y) (snd y)) rows end = filter (fun p => limits r (f p)) rows.
Proof. destruct r; [reflexivity|]. cbn [limits]. induction rows as [|x l IH]; [reflexivity|]. cbn. now rewrite <- IH. Qed.
Lemma filter_cong {A} (p q : A -> bool) l : (forall x, In x l -> p x = q x) -> filter p l = filter q l.
Proof. induction l as [|a l IH]; intros H; [reflexivity|]. cbn. rewrite H by now left. now rewrite IH by (intros; apply H; now right). Qed.
Lemma filter_twice {A} (p q : A -> bool) l : filter p (filter q l) = filter (fun x => q x && p x) l.
Proof. induction l as [|a l IH]; [reflexivity|]. cbn. destruct (q a); cbn; [destruct (p a); now rewrite IH|assumption]. Qed.
Lemma deviation_is root std l : is_deviation root std l (deviation root std l).
Proof.
  unfold is_deviation, deviation. destruct (Nat.leb_spec (length l) 1) as [H|H]; [left; auto|]. right. split; [assumption|]. exists (squares l / (qn (length l) - 1)). split; [|now destruct std]. exists (meanQ l). split; [apply mean_is; now destruct l|]. assert (P : 1 < qn (length l)) by (change 1 with (qn 1); unfold qn; rewrite <- Zlt_Qlt; lia). fold (squares l). field. lra.
Qed.
Section One.
  Variables (root : Q -> Q) (xs ys : list Q) (n : nat) (a b : Q) (yr : option (Q * Q)) (std : bool).
  Hypothesis n_pos : (0 < n)%nat.
  Hypothesis same : length xs = length ys.
  Let data := combine xs ys.
  Let rows := filter (fun p => limits yr (snd p)) (filter (fun p => in_range (fst p) a b) data).
  Let edges := linspace a b n.
  Let key := fun p : Q * Q => digitize (fst p) edges.
  Let keep := fun k (p : Q * Q) => is_in_bin a b n k (fst p) && limits yr (snd p).
  Let vals := fun k => map snd (filter (keep k) data).
  Let some := fun k => match vals k with [] => false | _ => true end.
  Let ks := filter some (seq 0 n).
  Lemma rows_in p : In p rows <-> In p data /\ a <= fst p < b /\ limits yr (snd p) = true.
  Proof using All. unfold rows. rewrite !filter_In. unfold in_range. rewrite andb_true_iff, Qle_bool_iff, Qltb_lt. tauto. Qed.
  Lemma key_bin p : In p rows -> (1 <= key p <= n)%nat.
  Proof using All. intros H. apply rows_in in H as (_ & H & _). destruct (digitize_bin a b n (fst p) n_pos H) as (k & E & (Hk & _)). unfold key, edges. rewrite E. lia. Qed.
  Lemma key_is p k : In p rows -> (k < n)%nat -> (key p =? S k)%nat = is_in_bin a b n k (fst p).
  Proof using All. intros H Hk. pose proof (key_bin p H). apply rows_in in H as (_ & H & _). rewrite <- (digit_bin n n n_pos n_pos a b n k (fst p) n_pos Hk H). fold edges. change (digitize (fst p) edges) with (key p). destruct (Nat.eqb_spec (key p) (S k)), (Nat.eqb_spec (key p - 1) k); try reflexivity; lia. Qed.
  Lemma vals_are k : (k < n)%nat -> map snd (filter (fun p => (key p =? S k)%nat) rows) = vals k.
  Proof using All.
    intros Hk. unfold vals. f_equal. rewrite (filter_cong _ (fun p => is_in_bin a b n k (fst p))) by (intros p Hp; now apply key_is). unfold rows. rewrite !filter_twice. apply filter_cong. intros p _. unfold keep. destruct (is_in_bin a b n k (fst p)) eqn:E; [|now rewrite !andb_false_r]. rewrite andb_true_r. cbn [andb]. apply in_bin_iff in E; [|assumption]. apply in_bin_range in E. unfold in_range. rewrite (proj2 (Qle_bool_iff _ _)), (proj2 (Qltb_lt _ _)) by tauto. reflexivity.
  Qed.
  Lemma groups_are : groups key snd rows = map (fun k => (S k, vals k)) ks.
  Proof using All.
    unfold groups. rewrite (keys_are key rows n key_bin), map_map. unfold ks. assert (E : filter (fun k => existsb (fun r => (key r =? S k)%nat) rows) (seq 0 n) = filter some (seq 0 n)).
    { apply filter_cong. intros k Hk. apply in_seq in Hk. unfold some. rewrite <- vals_are by lia. destruct (filter (fun p => (key p =? S k)%nat) rows) as [|p l] eqn:F.
      - cbn [map]. apply not_true_is_false. intros C. apply existsb_exists in C as (r & R1 & R2). assert (I : In r (filter (fun p => (key p =? S k)%nat) rows)) by (apply filter_In; auto). rewrite F in I. destruct I.
      - cbn [map]. apply existsb_exists. exists p. apply (filter_In (fun p => (key p =? S k)%nat)). rewrite F. now left. }
    rewrite E. apply map_ext_in. intros k Hk. apply filter_In in Hk as [Hk _]. apply in_seq in Hk. now rewrite vals_are by lia.
  Qed.
  Lemma in_ks k : In k ks <-> (k < n)%nat /\ vals k <> [].
  Proof using All. unfold ks, some. rewrite filter_In, in_seq. destruct (vals k); split; intros [H1 H2]; split; try lia; try congruence; discriminate. Qed.
  Let centers := shift_to_bin_centers edges.
  Lemma len_centers : length centers = n. Proof using All. apply length_bins. Qed.
  Let means := map (fun k => match vals k with [] => None | l => Some (meanQ l) end) (seq 0 n).
  Let devs := map (fun k => deviation root std (vals k)) (seq 0 n).
  Lemma rmap_values {A B} (f : A -> result B) (g : A -> B) l : (forall x, In x l -> f x = Ok (g x)) -> rmap f l = Ok (map g l).
  Proof using All. induction l as [|x l IH]; intros H; [reflexivity|]. cbn [rmap map]. rewrite (H x) by now left. cbn [rbind]. rewrite IH by (intros; apply H; now right). reflexivity. Qed.
  Lemma filled {B} (f : list Q -> B) (e : B) (out : nat -> B) : (forall k, (k < n)%nat -> out k = if some k then f (vals k) else e) ->
    fold_left (fun m g => upd (fst g - 1)%nat (f (snd g)) m) (map (fun k => (S k, vals k)) ks) (map (fun _ => e) centers) = map out (seq 0 n).
  Proof using All.
    intros H. set (gs := map (fun k => (S k, vals k)) ks). assert (Idx : map (fun g : nat * list Q => (fst g - 1)%nat) gs = ks). { unfold gs. rewrite map_map. rewrite <- (map_id ks) at 2. apply map_ext. intros k. cbn. lia. }
    assert (L : length (map (fun _ : Q => e) centers) = n) by now rewrite map_length, len_centers.
    assert (F : forall k, length (fold_left (fun m g => upd (fst g - 1)%nat (f (snd g)) m) gs (map (fun _ => e) centers)) = length (map (fun _ : Q => e) centers) /\ _) by (intros k; apply (fold_upd_nth (fun g : nat * list Q => (fst g - 1)%nat) (fun g => f (snd g)) gs (map (fun _ => e) centers) k e); [rewrite Idx; apply NoDup_filter, seq_NoDup|intros g Hg; rewrite L; apply in_map_iff in Hg as (k' & <- & Hk'); apply in_ks in Hk'; cbn; lia]).
    apply (nth_ext _ _ e e); [now rewrite (proj1 (F 0%nat)), L, map_length, seq_length|]. intros k Hk. rewrite (proj1 (F k)), L in Hk. destruct (F k) as (_ & F1 & F2). rewrite (nth_indep (map out (seq 0 n)) e (out 0%nat)) by now rewrite map_length, seq_length. rewrite map_nth, seq_nth by assumption. cbn [Nat.add]. rewrite H by assumption. destruct (some k) eqn:E.
    - assert (I : In (S k, vals k) gs) by (unfold gs; apply in_map_iff; exists k; split; [reflexivity|]; apply filter_In; split; [apply in_seq; lia|assumption]). rewrite (F1 _ I) by (cbn; lia). reflexivity.
    - rewrite F2; [|intros g Hg Eg; apply in_map_iff in Hg as (k' & <- & Hk'); cbn in Eg; replace k' with k in Hk' by lia; apply filter_In in Hk' as [_ Hk']; congruence]. rewrite <- L in Hk. assert (I2 : In (nth k (map (fun _ : Q => e) centers) e) (map (fun _ : Q => e) centers)) by now apply nth_In. apply in_map_iff in I2 as (? & <- & _). reflexivity.
  Qed.
  Lemma profile_full : profileX root xs ys n (Some (a, b)) yr std false = Ok (centers, means, devs).
  Proof using All.
    unfold profileX. cbn [rbind fst snd]. rewrite same, Nat.eqb_refl. cbn [negb]. rewrite limits_filter. fold data. fold rows. fold edges. fold key. fold centers. rewrite groups_are. rewrite (rmap_values _ (fun g : nat * list Q => nth (fst g - 1) centers 0)).
    2: { intros g Hg. apply in_map_iff in Hg as (k & <- & Hk). apply in_ks in Hk. cbn [fst]. rewrite (nth_error_nth' centers 0) by (rewrite len_centers; lia). reflexivity. }
    cbn [rbind]. rewrite (filled (fun l => Some (meanQ l)) None (fun k => match vals k with [] => None | l => Some (meanQ l) end)) by (intros k _; unfold some; now destruct (vals k)). rewrite (filled (deviation root std) None (fun k => deviation root std (vals k))) by (intros k _; unfold some; now destruct (vals k)). reflexivity.
  Qed.
  Lemma profile_dropped : profileX root xs ys n (Some (a, b)) yr std true = Ok (map (fun k => nth k centers 0) ks, map (fun k => Some (meanQ (vals k))) ks, map (fun k => deviation root std (vals k)) ks).
  Proof using All.
    unfold profileX. cbn [rbind fst snd]. rewrite same, Nat.eqb_refl. cbn [negb]. rewrite limits_filter. fold data. fold rows. fold edges. fold key. fold centers. rewrite groups_are. rewrite (rmap_values _ (fun g : nat * list Q => nth (fst g - 1) centers 0)).
    2: { intros g Hg. apply in_map_iff in Hg as (k & <- & Hk). apply in_ks in Hk. cbn [fst]. rewrite (nth_error_nth' centers 0) by (rewrite len_centers; lia). reflexivity. }
    cbn [rbind]. rewrite !map_map. cbn [fst snd]. do 2 f_equal. f_equal. apply map_ext. intros k. f_equal. lia.
  Qed.
  Lemma vals_of k : (k < n)%nat -> values_of data snd (fun r => in_bin a b n k (fst r) /\ in_limits yr (snd r)) (vals k).
  Proof using All. intros Hk. exists (keep k). split; [|reflexivity]. intros r _. unfold keep. now rewrite andb_true_iff, in_bin_iff, limits_iff. Qed.
End One.
Lemma nth_map_seq_d {B} (f : nat -> B) n k d : (k < n)%nat -> nth k (map f (seq 0 n)) d = f k.
Proof. intros H. rewrite (nth_indep _ d (f 0%nat)) by now rewrite map_length, seq_length. now rewrite map_nth, seq_nth. Qed.
Theorem C84_profile root xs ys n a b yr std : (0 < n)%nat -> length xs = length ys ->
  exists c m d, profileX root xs ys n (Some (a, b)) yr std false = Ok (c, m, d) /\ length c = n /\ length m = n /\ length d = n /\
    (forall k, (k < n)%nat -> nth k c 0 == bin_centre a b n k /\
       exists l, values_of (combine xs ys) snd (fun r => in_bin a b n k (fst r) /\ in_limits yr (snd r)) l /\
         (l = [] -> nth k m None = None) /\ (l <> [] -> exists v, nth k m None = Some v /\ is_mean l v) /\ is_deviation root std l (nth k d None)) /\
    let ks := filter (fun k => match nth k m None with Some _ => true | None => false end) (seq 0 n) in
    profileX root xs ys n (Some (a, b)) yr std true = Ok (map (fun k => nth k c 0) ks, map (fun k => nth k m None) ks, map (fun k => nth k d None) ks).
Proof.
  intros Hn L. eexists. eexists. eexists. split; [now apply profile_full|]. split; [apply length_bins|]. split; [now rewrite map_length, seq_length|]. split; [now rewrite map_length, seq_length|]. split.
  - intros k Hk. split; [now apply centers_spec|]. eexists. split; [now apply vals_of|]. rewrite !nth_map_seq_d by assumption. split; [intros ->; reflexivity|]. split; [|apply deviation_is]. intros N. eexists. split; [|apply mean_is, N]. match goal with |- match ?v with _ => _ end = _ => now destruct v end.
  - cbv zeta. rewrite profile_dropped by assumption. f_equal. set (data := combine xs ys). set (vals := fun k => map snd (filter (fun p : Q * Q => is_in_bin a b n k (fst p) && limits yr (snd p)) data)).
    assert (E : filter (fun k => match vals k with [] => false | _ => true end) (seq 0 n) = filter (fun k => match nth k (map (fun k => match vals k with [] => None | l => Some (meanQ l) end) (seq 0 n)) None with Some _ => true | None => false end) (seq 0 n)).
    { apply filter_cong. intros k Hk. apply in_seq in Hk. rewrite nth_map_seq_d by lia. now destruct (vals k). }
    unfold vals, data in *. clear vals data. rewrite <- E. clear E. f_equal; [f_equal|].
    + apply map_ext_in. intros k Hk. apply filter_In in Hk as [Hk Hv]. apply in_seq in Hk. rewrite nth_map_seq_d by lia. match goal with |- Some _ = match ?v with _ => _ end => destruct v; [discriminate|reflexivity] end.
    + apply map_ext_in. intros k Hk. apply filter_In in Hk as [Hk _]. apply in_seq in Hk. now rewrite nth_map_seq_d by lia.
Qed.
Theorem C84_default root xs ys n yr std drop : (xs = [] -> profileX root xs ys n None yr std drop = Err ValueError) /\
  (xs <> [] -> exists a b, (In a xs /\ forall x, In x xs -> a <= x) /\ (In b xs /\ forall x, In x xs -> x <= b) /\ profileX root xs ys n None yr std drop = profileX root xs ys n (Some (a, b)) yr std drop).
Proof.
  split; [intros ->; reflexivity|]. destruct xs as [|x xs]; [contradiction|]. intros _. exists (fold_left Qmin xs x), (fold_left Qmax xs x). destruct (BuffersEvent.fold_min xs x) as [A1 A2]. destruct (BuffersEvent.fold_max xs x) as [B1 B2].
  split; [split; [apply PaolinaDrop.fold_min_in|intros y [<-|H]; auto]|]. split; [split; [apply TopoTrack.fold_max_in|intros y [<-|H]; auto]|reflexivity].
Qed.
Theorem C84_lengths root xs ys n r yr std drop : length xs <> length ys -> profileX root xs ys n (Some r) yr std drop = Err IndexError.
Proof. intros H. unfold profileX. cbn [rbind]. apply Nat.eqb_neq in H. now rewrite H. Qed.
(** the profile along y bins the y coordinate and averages the x coordinate *)
Theorem C84_profileY root xs ys n a b xr std : (0 < n)%nat -> length xs = length ys ->
  exists c m d, profileY root xs ys n (Some (a, b)) xr std false = Ok (c, m, d) /\ length c = n /\ length m = n /\ length d = n /\
    forall k, (k < n)%nat -> nth k c 0 == bin_centre a b n k /\
       exists l, values_of (combine ys xs) snd (fun r => in_bin a b n k (fst r) /\ in_limits xr (snd r)) l /\
         (l = [] -> nth k m None = None) /\ (l <> [] -> exists v, nth k m None = Some v /\ is_mean l v) /\ is_deviation root std l (nth k d None).
Proof. intros Hn L. destruct (C84_profile root ys xs n a b xr std Hn (eq_sym L)) as (c & m & d & E & L1 & L2 & L3 & H & _). exists c, m, d. auto. Qed.
(** ---- two axes ---- *)
Definition put (gb : list ((nat * nat) * list Q)) (f : list Q -> Q) (m : list (list Q)) : list (list Q) :=
  fold_left (fun m g => upd (fst (fst g) - 1)%nat (upd (snd (fst g) - 1)%nat (f (snd g)) (nth (fst (fst g) - 1) m [])) m) gb m.
Definition shaped (nx ny : nat) (m : list (list Q)) : Prop := length m = nx /\ forall i, (i < nx)%nat -> length (nth i m []) = ny.
Lemma put_spec nx ny f gb m : NoDup (map fst gb) -> (forall g, In g gb -> (1 <= fst (fst g) <= nx)%nat /\ (1 <= snd (fst g) <= ny)%nat) -> shaped nx ny m ->
  shaped nx ny (put gb f m) /\ (forall g, In g gb -> nth (snd (fst g) - 1) (nth (fst (fst g) - 1) (put gb f m) []) 0 = f (snd g)) /\
  (forall i j, (i < nx)%nat -> (j < ny)%nat -> (forall g, In g gb -> fst g <> (S i, S j)) -> nth j (nth i (put gb f m) []) 0 = nth j (nth i m []) 0).
Proof.
  revert m. induction gb as [|g gb IH]; intros m N B Sh; [split; [assumption|split; [intros g []|reflexivity]]|]. cbn [map] in N. apply NoDup_cons_iff in N as [N1 N2]. destruct (B g (or_introl eq_refl)) as [B1 B2]. destruct g as [[p q] l]. cbn [fst snd] in *. destruct Sh as [S1 S2].
  set (m' := upd (p - 1)%nat (upd (q - 1)%nat (f l) (nth (p - 1) m [])) m). change (put (((p, q), l) :: gb) f m) with (put gb f m').
  assert (R : forall i, (i < nx)%nat -> nth i m' [] = if (i =? p - 1)%nat then upd (q - 1)%nat (f l) (nth (p - 1) m []) else nth i m []) by (intros i Hi; unfold m'; rewrite nth_upd by lia; reflexivity).
  assert (Sh' : shaped nx ny m'). { split; [unfold m'; now rewrite length_upd|]. intros i Hi. rewrite R by assumption. destruct (i =? p - 1)%nat; [rewrite length_upd; apply S2; lia|now apply S2]. }
  destruct (IH m' N2 (fun g Hg => B g (or_intror Hg)) Sh') as (I1 & I2 & I3). split; [assumption|]. split.
  - intros g [<-|Hg]; [|now apply I2]. cbn [fst snd]. rewrite I3; [|lia|lia|intros g Hg Eg; apply N1; apply in_map_iff; exists g; split; [|assumption]; rewrite Eg; f_equal; lia]. rewrite R by lia. rewrite Nat.eqb_refl. rewrite nth_upd by (rewrite S2; lia). now rewrite Nat.eqb_refl.
  - intros i j Hi Hj H. rewrite I3 by (auto; intros g Hg; apply H; now right). rewrite R by assumption. destruct (Nat.eqb_spec i (p - 1)) as [->|]; [|reflexivity]. rewrite nth_upd by (rewrite S2; lia). destruct (Nat.eqb_spec j (q - 1)) as [->|]; [|reflexivity]. exfalso. apply (H ((p, q), l) (or_introl eq_refl)). cbn. f_equal; lia.
Qed.
Lemma eq2_iff a b : eq2 a b = true <-> a = b.
Proof. destruct a, b. unfold eq2. cbn. rewrite andb_true_iff, !Nat.eqb_eq. split; [intros [-> ->]; reflexivity|intros E; injection E; auto]. Qed.
Theorem C84_profileXY root xs ys zs nx ny a b c d zr std : (0 < nx)%nat -> (0 < ny)%nat -> length xs = length ys -> length xs = length zs ->
  let rows := combine (combine xs ys) zs in
  let used := fun r : (Q * Q) * Q => (a <= fst (fst r) < b) /\ (c <= snd (fst r) < d) /\ in_limits zr (snd r) in
  ((forall r, In r rows -> ~ used r) -> profileXY root xs ys zs nx ny (Some (a, b)) (Some (c, d)) zr std = Err ValueError) /\
  ((exists r, In r rows /\ used r) -> exists cx cy m e, profileXY root xs ys zs nx ny (Some (a, b)) (Some (c, d)) zr std = Ok (cx, cy, m, e) /\ length cx = nx /\ length cy = ny /\ shaped nx ny m /\ shaped nx ny e /\
     forall i j, (i < nx)%nat -> (j < ny)%nat -> nth i cx 0 == bin_centre a b nx i /\ nth j cy 0 == bin_centre c d ny j /\
       exists l, values_of rows snd (fun r => in_bin a b nx i (fst (fst r)) /\ in_bin c d ny j (snd (fst r)) /\ in_limits zr (snd r)) l /\
         (l = [] -> nth j (nth i m []) 0 = 0) /\ (l <> [] -> is_mean l (nth j (nth i m []) 0)) /\
         exists v, is_deviation root std l v /\ nth j (nth i e []) 0 = match v with Some v => v | None => 0 end).
Proof.
  intros Hx Hy L1 L2 data used. set (key := fun p : (Q * Q) * Q => (digitize (fst (fst p)) (linspace a b nx), digitize (snd (fst p)) (linspace c d ny))).
  set (rows := filter (fun p => limits zr (snd p)) (filter (fun p => in_range (fst (fst p)) a b && in_range (snd (fst p)) c d) data)).
  assert (In_rows : forall r, In r rows <-> In r data /\ used r). { intros r. unfold rows, used. rewrite !filter_In, limits_iff, andb_true_iff. unfold in_range. rewrite !andb_true_iff, !Qle_bool_iff, !Qltb_lt. tauto. }
  assert (Keys : forall r, In r rows -> (1 <= fst (key r) <= nx)%nat /\ (1 <= snd (key r) <= ny)%nat /\ forall i j, (i < nx)%nat -> (j < ny)%nat -> (key r = (S i, S j) <-> in_bin a b nx i (fst (fst r)) /\ in_bin c d ny j (snd (fst r)))).
  { intros r Hr. apply In_rows in Hr as (_ & U1 & U2 & _). destruct (digitize_bin a b nx _ Hx U1) as (k1 & E1 & (K1 & _)). destruct (digitize_bin c d ny _ Hy U2) as (k2 & E2 & (K2 & _)). unfold key. rewrite E1, E2. cbn [fst snd]. split; [lia|]. split; [lia|]. intros i j Hi Hj. rewrite <- !in_bin_iff by assumption. rewrite <- (digit_bin nx nx Hx Hx a b nx i _ Hx Hi U1), <- (digit_bin nx nx Hx Hx c d ny j _ Hy Hj U2), E1, E2, !Nat.eqb_eq. split; [intros E; injection E; lia|intros [A B]; f_equal; lia]. }
  set (gb := groups2 key snd rows).
  assert (E : profileXY root xs ys zs nx ny (Some (a, b)) (Some (c, d)) zr std = match gb with [] => Err ValueError | _ => if forallb (fun g : (nat * nat) * list Q => (fst (fst g) - 1 <? nx) && (snd (fst g) - 1 <? ny))%nat gb then Ok (shift_to_bin_centers (linspace a b nx), shift_to_bin_centers (linspace c d ny), put gb meanQ (repeat (repeat 0 ny) nx), put gb (fun l => match deviation root std l with Some d => d | None => 0 end) (repeat (repeat 0 ny) nx)) else Err IndexError end).
  { unfold profileXY. cbn [rbind fst snd]. rewrite L1, Nat.eqb_refl, <- L1, L2, Nat.eqb_refl. cbn [negb]. rewrite limits_filter. reflexivity. }
  rewrite E. clear E. assert (In_keys : forall n, In n (map fst gb) <-> exists r, In r rows /\ key r = n). { intros n. unfold gb, groups2. rewrite map_map. cbn [fst]. rewrite map_id, in_sort_by, nodup_In, in_map_iff. split; intros (r & A & B); exists r; auto. }
  assert (Nd : NoDup (map fst gb)). { unfold gb, groups2. rewrite map_map. cbn [fst]. rewrite map_id. eapply Permutation_NoDup; [symmetry; apply sort_by_perm|apply NoDup_nodup]. }
  assert (Vals : forall g, In g gb -> snd g = map snd (filter (fun r => eq2 (key r) (fst g)) rows)). { intros g Hg. unfold gb, groups2 in Hg. apply in_map_iff in Hg as (n & <- & _). reflexivity. }
  assert (Bd : forall g, In g gb -> (1 <= fst (fst g) <= nx)%nat /\ (1 <= snd (fst g) <= ny)%nat). { intros g Hg. apply (in_map fst) in Hg. apply In_keys in Hg as (r & Hr & <-). destruct (Keys r Hr) as (A & B & _). auto. }
  split.
  - intros H. destruct gb as [|g l]; [reflexivity|]. exfalso. destruct (proj1 (In_keys (fst g)) (or_introl eq_refl)) as (r & Hr & _). apply In_rows in Hr as [A B]. exact (H r A B).
  - intros (r0 & R1 & R2). assert (Ng : gb <> []). { intros C. assert (I : In (key r0) (map fst gb)) by (apply In_keys; exists r0; split; [apply In_rows; auto|reflexivity]). rewrite C in I. destruct I. }
    assert (Fb : forallb (fun g : (nat * nat) * list Q => (fst (fst g) - 1 <? nx) && (snd (fst g) - 1 <? ny))%nat gb = true). { apply forallb_forall. intros g Hg. destruct (Bd g Hg). rewrite andb_true_iff, !Nat.ltb_lt. lia. }
    rewrite Fb. assert (Sh0 : shaped nx ny (repeat (repeat 0 ny) nx)). { split; [apply repeat_length|]. intros i Hi. rewrite (nth_indep _ [] (repeat 0 ny)) by now rewrite repeat_length. rewrite nth_repeat. apply repeat_length. }
    destruct (put_spec nx ny meanQ gb _ Nd Bd Sh0) as (P1 & P2 & P3). destruct (put_spec nx ny (fun l => match deviation root std l with Some d => d | None => 0 end) gb _ Nd Bd Sh0) as (Q1 & Q2 & Q3).
    exists (shift_to_bin_centers (linspace a b nx)), (shift_to_bin_centers (linspace c d ny)), (put gb meanQ (repeat (repeat 0 ny) nx)), (put gb (fun l => match deviation root std l with Some d => d | None => 0 end) (repeat (repeat 0 ny) nx)).
    split; [destruct gb; [contradiction|reflexivity]|]. split; [apply length_bins|]. split; [apply length_bins|]. split; [assumption|]. split; [assumption|].
    intros i j Hi Hj. split; [now apply centers_spec|]. split; [now apply centers_spec|]. set (l := map snd (filter (fun r => eq2 (key r) (S i, S j)) rows)). exists l. split; [|].
    + exists (fun r : (Q * Q) * Q => (is_in_bin a b nx i (fst (fst r)) && is_in_bin c d ny j (snd (fst r)) && limits zr (snd r))). split; [intros r _; rewrite !andb_true_iff, !in_bin_iff, limits_iff by assumption; tauto|]. unfold l. f_equal. rewrite (filter_cong _ (fun r => is_in_bin a b nx i (fst (fst r)) && is_in_bin c d ny j (snd (fst r)))).
      * unfold rows. rewrite !filter_twice. apply filter_cong. intros r _. destruct (is_in_bin a b nx i (fst (fst r))) eqn:E1; [|now rewrite !andb_false_r]. destruct (is_in_bin c d ny j (snd (fst r))) eqn:E2; [|now rewrite !andb_false_r]. apply in_bin_iff in E1, E2; try assumption. apply in_bin_range in E1, E2. unfold in_range. rewrite !(proj2 (Qle_bool_iff _ _)), !(proj2 (Qltb_lt _ _)) by tauto. cbn [andb]. now rewrite andb_true_r.
      * intros r Hr. destruct (Keys r Hr) as (_ & _ & K). specialize (K i j Hi Hj). apply eq_true_iff_eq. now rewrite eq2_iff, K, andb_true_iff, !in_bin_iff.
    + assert (Cases : (exists g, In g gb /\ fst g = (S i, S j) /\ snd g = l /\ l <> []) \/ ((forall g, In g gb -> fst g <> (S i, S j)) /\ l = [])).
      { destruct (in_dec eq2_dec (S i, S j) (map fst gb)) as [I|I].
        - left. apply in_map_iff in I as (g & Eg & Hg). exists g. split; [assumption|]. split; [assumption|]. split; [rewrite (Vals g Hg), Eg; reflexivity|]. assert (I2 : In (S i, S j) (map fst gb)) by (rewrite <- Eg; now apply in_map). apply In_keys in I2 as (r & Hr & Kr). intros C. unfold l in C. apply map_eq_nil in C. assert (I3 : In r (filter (fun r => eq2 (key r) (S i, S j)) rows)) by (apply filter_In; split; [assumption|now apply eq2_iff]). rewrite C in I3. destruct I3.
        - right. split; [intros g Hg Eg; apply I; rewrite <- Eg; now apply in_map|]. unfold l. destruct (filter (fun r => eq2 (key r) (S i, S j)) rows) as [|r t] eqn:F; [reflexivity|]. exfalso. apply I. apply In_keys. exists r. assert (I3 : In r (filter (fun r => eq2 (key r) (S i, S j)) rows)) by (rewrite F; now left). apply filter_In in I3 as [A B]. apply eq2_iff in B. auto. }
      assert (Z0 : nth j (nth i (repeat (repeat 0 ny) nx) []) 0 = 0). { rewrite (nth_indep _ [] (repeat 0 ny)) by now rewrite repeat_length. rewrite nth_repeat. apply nth_repeat. }
      destruct Cases as [(g & Hg & Eg & El & Nl)|[Nog El]].
      * specialize (P2 g Hg). specialize (Q2 g Hg). rewrite Eg, El in P2, Q2. cbn [fst snd] in P2, Q2. replace (S i - 1)%nat with i in P2, Q2 by lia. replace (S j - 1)%nat with j in P2, Q2 by lia. split; [intros C; contradiction|]. split; [intros _; rewrite P2; now apply mean_is|]. exists (deviation root std l). split; [apply deviation_is|assumption].
      * split; [intros _; now rewrite P3|]. split; [intros C; contradiction|]. exists None. split; [left; rewrite El; cbn; auto|]. now rewrite Q3.
Qed.
(** ---- what does not hold ---- *)
(** by default the largest value of x is in no bin *)
Theorem C84_maximum_refuted root : exists xs ys x y, In (x, y) (combine xs ys) /\ exists c d, profileX root xs ys 2 None None true false = Ok (c, [Some 5; Some 5], d) /\ y == 500.
Proof. exists [0; 1; 2], [5; 5; 500], 2, 500. split; [cbn; tauto|]. eexists. eexists. split; [vm_compute; reflexivity|reflexivity]. Qed.
(** dropping the bins without a value keeps bins without a deviation: those of one entry *)
Theorem C84_single_refuted root : exists xs ys c m, profileX root xs ys 2 (Some (0, 2)) None true true = Ok (c, m, [None]).
Proof. exists [0], [7]. eexists. eexists. vm_compute. reflexivity. Qed.
(** ---- examples ---- *)
Example C84_example : exists c d1 d2 e, profileX (fun q => q) [0; 1; 1; 3; 9] [2; 4; 6; 8; 1] 2 (Some (0, 4)) None true false = Ok (c, [Some d1; Some d2], [Some e; None]) /\ d1 == 4 /\ d2 == 8 /\ e == 4.
Proof. do 4 eexists. split; [vm_compute; reflexivity|]. split; [reflexivity|split; reflexivity]. Qed.
Example C84_example_XY : exists cx cy m e, profileXY (fun q => q) [0; 1; 1; 3] [0; 1; 0; 3] [2; 4; 6; 8] 2 2 (Some (0, 4)) (Some (0, 4)) None true = Ok (cx, cy, m, e) /\ nth 0 (nth 0 m []) 0 == 4 /\ nth 1 (nth 1 m []) 0 == 8 /\ nth 0 (nth 1 m []) 0 == 0.
Proof. eexists. eexists. eexists. eexists. split; [vm_compute; reflexivity|]. split; [reflexivity|]. split; reflexivity. Qed.
Print Assumptions C84_profile. Print Assumptions C84_default. Print Assumptions C84_lengths. Print Assumptions C84_profileY. Print Assumptions C84_profileXY. Print Assumptions C84_maximum_refuted. Print Assumptions C84_single_refuted.
