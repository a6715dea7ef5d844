(** Properties C27, C28, C59 and C60 *)
From Verif Require Import Base PeaksModel PeaksFind Arrays WfmModel WfmSpec.
Local Open Scope Q_scope.

(** ** C27 *)
Lemma length_map2_eq {A B C} (f : A -> B -> C) l m : length l = length m -> length (map2 f l m) = length l.
Proof. revert m; induction l as [|a l IH]; intros [|b m] H; cbn in *; try lia. rewrite IH; lia. Qed.
Lemma nth_map2 {A B C} (f : A -> B -> C) l m i da db dc : length l = length m -> (i < length l)%nat ->
  nth i (map2 f l m) dc = f (nth i l da) (nth i m db).
Proof.
  revert m i; induction l as [|a l IH]; intros [|b m] i H Hi; cbn in *; try lia. destruct i as [|i]; [reflexivity|]. apply IH; lia.
Qed.

Lemma fold_assign p n (idx : list nat) : forall below, length below = n ->
  length (fold_left (fun b i => assign_range (i - p) (Nat.min (i + p) (n - 1)) false b) idx below) = n /\
  forall j, (j < n)%nat ->
    nth j (fold_left (fun b i => assign_range (i - p) (Nat.min (i + p) (n - 1)) false b) idx below) false = true <->
    nth j below false = true /\ forall i, In i idx -> ~ (i - p <= j < i + p /\ j + 1 < n)%nat.
Proof.
  induction idx as [|i idx IH]; intros below L; cbn [fold_left].
  - split; [assumption|]. intros j Hj. split; [intros H; split; [assumption|easy]|easy].
  - destruct (IH (assign_range (i - p) (Nat.min (i + p) (n - 1)) false below)) as [L' N]; [now rewrite length_assign_range|].
    split; [assumption|]. intros j Hj. rewrite N by assumption. rewrite nth_assign_range by now rewrite L.
    destruct (Nat.leb_spec (i - p) j), (Nat.ltb_spec j (Nat.min (i + p) (n - 1))); cbn [andb].
    + split; [intros [C _]; discriminate|]. intros [_ C]. exfalso. apply (C i (or_introl eq_refl)). lia.
    + split; intros [H1 H2]; (split; [assumption|]).
      * intros k [<-|Hk]; [lia|]. now apply H2.
      * intros k Hk. apply H2. now right.
    + split; intros [H1 H2]; (split; [assumption|]).
      * intros k [<-|Hk]; [lia|]. now apply H2.
      * intros k Hk. apply H2. now right.
    + split; intros [H1 H2]; (split; [assumption|]).
      * intros k [<-|Hk]; [lia|]. now apply H2.
      * intros k Hk. apply H2. now right.
Qed.

Lemma below_length wf thr : length (below_thr wf thr) = length wf.
Proof. apply map_length. Qed.
Lemma below_nth wf thr j : (j < length wf)%nat -> nth j (below_thr wf thr) false = true <-> nth j wf 0 <= thr.
Proof.
  intros Hj. unfold below_thr. rewrite nth_indep with (d' := Qle_bool 0 thr) by now rewrite map_length.
  rewrite map_nth with (f := fun x => Qle_bool x thr). apply Qleb_le.
Qed.

Lemma pad_signal_spec wf thr p : length (pad_signal p (below_thr wf thr)) = length wf /\
  forall j, (j < length wf)%nat -> nth j (pad_signal p (below_thr wf thr)) false = true <-> ~ kept wf thr p j.
Proof.
  unfold pad_signal. rewrite below_length. destruct (Nat.ltb_spec 0 p) as [Hp|Hp].
  - destruct (fold_assign p (length wf) (np_where negb (below_thr wf thr)) _ (below_length wf thr)) as [L N].
    split; [assumption|]. intros j Hj. rewrite N, below_nth by assumption. unfold kept. split.
    + intros [H1 H2] [C|(i & Hi & Ci & Hij & Hl)]; [lra|]. apply (H2 i); [|lia].
      apply in_np_where with (d := false). rewrite below_length. split; [assumption|].
      apply negb_true_iff. apply not_true_is_false. rewrite below_nth by assumption. lra.
    + intros K. split; [apply Qnot_lt_le; intros C; apply K; now left|].
      intros i Hi C. apply K. right. exists i. apply in_np_where with (d := false) in Hi. rewrite below_length in Hi. destruct Hi as [Hi Hn].
      split; [assumption|]. split; [|lia]. apply Qnot_le_lt. intros D. apply negb_true_iff in Hn.
      apply (below_nth wf thr i Hi) in D. congruence.
  - split; [apply below_length|]. intros j Hj. rewrite below_nth by assumption. unfold kept. split.
    + intros H [C|(i & _ & _ & C & _)]; [lra|lia].
    + intros K. apply Qnot_lt_le. intros C. apply K. now left.
Qed.

Theorem C27_zero_suppression wf thr p :
  let out := suppress_wf wf thr p in
  length out = length wf /\
  forall j, (j < length wf)%nat ->
    (kept wf thr p j -> nth j out 0 = nth j wf 0) /\ (~ kept wf thr p j -> nth j out 0 = 0).
Proof.
  cbv zeta. unfold suppress_wf. destruct (pad_signal_spec wf thr p) as [L N].
  split; [now rewrite length_map2_eq|]. intros j Hj. rewrite nth_map2 with (da := false) (db := 0) by (rewrite ?L; congruence || assumption).
  specialize (N j Hj). destruct (nth j (pad_signal p (below_thr wf thr)) false); split; intros H; try reflexivity.
  - exfalso. now apply (proj1 N eq_refl).
  - apply N in H. discriminate.
Qed.
Example C27_ex : suppress_wf [1; 2; 9; 3; 4; 5; 6] 8 2 = [1; 2; 9; 3; 0; 0; 0].
Proof. reflexivity. Qed.

Theorem C27_all_waveforms wfs thrs ps : length thrs = length wfs -> length ps = length wfs ->
  length (noise_suppression wfs thrs ps) = length wfs /\
  forall i, (i < length wfs)%nat -> nth i (noise_suppression wfs thrs ps) [] = suppress_wf (nth i wfs []) (nth i thrs 0) (nth i ps 0%nat).
Proof.
  unfold noise_suppression. revert thrs ps; induction wfs as [|w wfs IH]; intros [|t thrs] [|p ps] H1 H2; cbn in *; try lia.
  - split; [reflexivity|]. intros; lia.
  - destruct (IH thrs ps) as [L N]; [lia..|]. split; [now rewrite L|]. intros [|i] Hi; [reflexivity|]. apply N. lia.
Qed.
Example C27_all_ex : noise_suppression [[1; 9]; [7; 2]] [3; 8] [0%nat; 0%nat] = [[0; 9]; [0; 0]].
Proof. reflexivity. Qed.

(** the documentation says that [padding] samples before and after the signal are kept:
    the last one after the signal is not, and neither is the last sample of the waveform *)
Theorem C27_symmetric_padding_refuted :
  (exists wf thr i p, (i + p < length wf)%nat /\ thr < nth i wf 0 /\ ~ nth (i + p) wf 0 == 0 /\ nth (i + p) (suppress_wf wf thr p) 0 = 0 /\ (i + p + 1 < length wf)%nat) /\
  (exists wf thr i p j, (i < j < i + p)%nat /\ (j < length wf)%nat /\ thr < nth i wf 0 /\ ~ nth j wf 0 == 0 /\ nth j (suppress_wf wf thr p) 0 = 0).
Proof.
  split.
  - exists [1; 2; 9; 3; 4; 5; 6], 8, 2%nat, 2%nat. cbn. repeat split; try lia; try lra; vm_compute; discriminate || reflexivity.
  - exists [1; 9; 3], 8, 1%nat, 2%nat, 2%nat. cbn. repeat split; try lia; try lra; vm_compute; discriminate || reflexivity.
Qed.

(** ** C28 *)
Lemma near_iff d p q : closer d p q = true <-> near d p q.
Proof. unfold closer, near. rewrite andb_true_iff, !Qltb_lt. reflexivity. Qed.
Lemma reached_iff r p q : within r p q = true <-> reached r p q.
Proof. unfold within, reached. rewrite andb_true_iff, !Qleb_le. reflexivity. Qed.
Lemma near_self d p : 0 < d -> near d p p.
Proof. intros H. split; [assumption|]. unfold distance2. setoid_replace ((fst p - fst p) * (fst p - fst p) + (snd p - snd p) * (snd p - snd p)) with 0 by ring. nra. Qed.
Lemma distance2_sym p q : distance2 p q == distance2 q p.
Proof. unfold distance2. ring. Qed.
Lemma near_sym d p q : near d p q -> near d q p.
Proof. intros [H1 H2]. split; [assumption|]. rewrite distance2_sym. assumption. Qed.

Lemma sel_bound m i : sel m i -> (i < length m)%nat.
Proof. unfold sel. intros H. destruct (Nat.lt_ge_cases i (length m)) as [C|C]; [assumption|]. rewrite nth_overflow in H by assumption. discriminate. Qed.

Lemma n_neighbors_spec selected pos d i : length selected = length pos -> sel selected i ->
  (2 <= n_neighbors selected pos d i)%nat <->
  exists j, j <> i /\ sel selected j /\ near d (nth j pos origin) (nth i pos origin).
Proof.
  intros L Hi. unfold n_neighbors. rewrite count_ge_two with (d := (false, origin)).
  pose proof (sel_bound _ _ Hi) as Bi.
  assert (K : forall j, (j < length (combine selected pos))%nat ->
     fst (nth j (combine selected pos) (false, origin)) && closer d (snd (nth j (combine selected pos) (false, origin))) (nth i pos origin) = true
     <-> sel selected j /\ near d (nth j pos origin) (nth i pos origin)).
  { intros j Hj. rewrite combine_nth by assumption. cbn [fst snd]. rewrite andb_true_iff, near_iff. reflexivity. }
  rewrite combine_length, L, Nat.min_id in *. split.
  - intros (a & b & Hab & Ha & Hb). apply K in Ha; [|lia]. apply K in Hb; [|lia].
    destruct (Nat.eq_dec a i) as [->|Na]; [exists b; split; [lia|assumption]|exists a; split; assumption].
  - intros (j & Nj & Hj & Hn). pose proof (sel_bound _ _ Hj) as Bj. rewrite L in Bj.
    assert (Si : near d (nth i pos origin) (nth i pos origin)) by (apply near_self; apply Hn).
    destruct (Nat.lt_ge_cases i j) as [C|C]; [exists i, j|exists j, i]; (split; [lia|]); rewrite !K by lia; auto.
Qed.

Lemma kill_fold (p : nat -> bool) idx : forall m, (forall i, In i idx -> (i < length m)%nat) ->
  length (fold_left (fun m i => if p i then upd i false m else m) idx m) = length m /\
  forall j, sel (fold_left (fun m i => if p i then upd i false m else m) idx m) j <-> sel m j /\ ~ (In j idx /\ p j = true).
Proof.
  induction idx as [|i idx IH]; intros m Hb; cbn [fold_left].
  - split; [reflexivity|]. intros j. split; [intros H; split; [assumption|tauto]|tauto].
  - destruct (IH (if p i then upd i false m else m)) as [L N].
    { intros k Hk. destruct (p i); rewrite ?length_upd; apply Hb; now right. }
    split; [rewrite L; destruct (p i); [apply length_upd|reflexivity]|]. intros j. rewrite N. unfold sel.
    destruct (p i) eqn:Ep.
    + rewrite nth_upd by (apply Hb; now left). destruct (Nat.eqb_spec j i) as [->|Nji].
      * split; [intros [C _]; discriminate|]. intros [_ C]. exfalso. apply C. split; [now left|assumption].
      * split; intros [H1 H2]; (split; [assumption|]); intros [H3 H4]; apply H2; (split; [|assumption]); [destruct H3; [congruence|assumption]|now right].
    + split; intros [H1 H2]; (split; [assumption|]); intros [H3 H4]; apply H2; (split; [|assumption]); [destruct H3; [congruence|assumption]|now right].
Qed.

Theorem C28_kept_iff_not_isolated selected pos d : length selected = length pos ->
  let out := kill_isolated_sipms selected pos d in
  length out = length selected /\
  forall i, sel out i <-> sel selected i /\ exists j, j <> i /\ sel selected j /\ near d (nth j pos origin) (nth i pos origin).
Proof.
  intros L. cbv zeta. unfold kill_isolated_sipms.
  destruct (kill_fold (fun i => n_neighbors selected pos d i <=? 1)%nat (np_where (fun b => b) selected) selected) as [L' N].
  { intros i Hi. apply in_np_where with (d := false) in Hi. apply Hi. }
  split; [assumption|]. intros i. rewrite N. rewrite in_np_where with (d := false). split.
  - intros [H1 H2]. split; [assumption|]. apply n_neighbors_spec; [assumption..|].
    destruct (Nat.leb_spec (n_neighbors selected pos d i) 1) as [C|C]; [|lia]. exfalso. apply H2. split; [|reflexivity].
    split; [now apply sel_bound|assumption].
  - intros [H1 H2]. split; [assumption|]. intros [_ C]. apply n_neighbors_spec in H2; [|assumption..]. apply Nat.leb_le in C. lia.
Qed.

Lemma mask_ext (m m' : list bool) : length m = length m' -> (forall i, sel m i <-> sel m' i) -> m = m'.
Proof.
  intros L H. apply list_ext_nth with (d := false); [assumption|]. intros i _. specialize (H i). unfold sel in H.
  destruct (nth i m false), (nth i m' false); try reflexivity; [symmetry; now apply H|now apply H].
Qed.

Theorem C28_idempotent selected pos d : length selected = length pos ->
  kill_isolated_sipms (kill_isolated_sipms selected pos d) pos d = kill_isolated_sipms selected pos d.
Proof.
  intros L. destruct (C28_kept_iff_not_isolated selected pos d L) as [L1 N1].
  destruct (C28_kept_iff_not_isolated (kill_isolated_sipms selected pos d) pos d) as [L2 N2]; [congruence|].
  apply mask_ext; [assumption|]. intros i. rewrite N2. split; [tauto|]. intros H. split; [assumption|].
  apply N1 in H. destruct H as (Hi & j & Nj & Hj & Hn). exists j. split; [assumption|]. split; [|assumption].
  apply N1. split; [assumption|]. exists i. split; [congruence|]. split; [assumption|]. now apply near_sym.
Qed.

Lemma not_sel_false {A} (l : list A) j : ~ sel (map (fun _ => false) l) j.
Proof. unfold sel. revert j; induction l as [|x l IH]; intros [|j]; cbn; try discriminate. apply IH. Qed.

Lemma padding_fold r pos n : length pos = n -> forall idx m, length m = n ->
  length (fold_left (fun m i => map2 orb m (map (fun p => within r p (nth i pos origin)) pos)) idx m) = n /\
  forall j, (j < n)%nat -> sel (fold_left (fun m i => map2 orb m (map (fun p => within r p (nth i pos origin)) pos)) idx m) j <->
            sel m j \/ exists i, In i idx /\ reached r (nth j pos origin) (nth i pos origin).
Proof.
  intros Lp. induction idx as [|i idx IH]; intros m Lm; cbn [fold_left].
  - split; [assumption|]. intros j Hj. split; [now left|]. intros [H|(i & [] & _)]; assumption.
  - destruct (IH (map2 orb m (map (fun p => within r p (nth i pos origin)) pos))) as [L N].
    { rewrite length_map2_eq; [assumption|]. now rewrite map_length, Lp. }
    split; [assumption|]. intros j Hj. rewrite N by assumption. unfold sel at 1.
    rewrite nth_map2 with (da := false) (db := within r origin (nth i pos origin)) by (rewrite ?map_length; congruence).
    rewrite map_nth with (f := fun p => within r p (nth i pos origin)). rewrite orb_true_iff, reached_iff. unfold sel. split.
    + intros [[H|H]|(k & Hk & H)]; [now left|right; exists i; split; [now left|assumption]|right; exists k; split; [now right|assumption]].
    + intros [H|(k & [<-|Hk] & H)]; [left; now left|left; now right|right; eauto].
Qed.

Theorem C28_padding selected pos r : length selected = length pos ->
  let out := apply_circular_padding selected pos r in
  length out = length selected /\
  (forall j, (j < length pos)%nat -> sel out j <-> exists i, sel selected i /\ reached r (nth j pos origin) (nth i pos origin)) /\
  (0 <= r -> forall j, sel selected j -> sel out j).
Proof.
  intros L. cbv zeta. unfold apply_circular_padding.
  destruct (padding_fold r pos (length pos) eq_refl (np_where (fun b => b) selected) (map (fun _ => false) selected)) as [L' N].
  { now rewrite map_length. }
  assert (K : forall j, (j < length pos)%nat -> sel (fold_left (fun m i => map2 orb m (map (fun p => within r p (nth i pos origin)) pos)) (np_where (fun b => b) selected) (map (fun _ => false) selected)) j
     <-> exists i, sel selected i /\ reached r (nth j pos origin) (nth i pos origin)).
  { intros j Hj. rewrite N by assumption. split.
    - intros [C|(i & Hi & H)].
      + exfalso. exact (not_sel_false _ _ C).
      + apply in_np_where with (d := false) in Hi. exists i. split; [apply Hi|assumption].
    - intros (i & Hi & H). right. exists i. split; [|assumption]. apply in_np_where with (d := false). split; [now apply sel_bound|assumption]. }
  split; [congruence|]. split; [exact K|]. intros Hr j Hj. pose proof (sel_bound _ _ Hj). apply K; [lia|]. exists j. split; [assumption|].
  split; [assumption|]. unfold distance2. 
  setoid_replace ((fst (nth j pos origin) - fst (nth j pos origin)) * (fst (nth j pos origin) - fst (nth j pos origin)) + (snd (nth j pos origin) - snd (nth j pos origin)) * (snd (nth j pos origin) - snd (nth j pos origin))) with 0 by ring. nra.
Qed.

Example C28_ex : let pos := [(0, 0); (10, 0); (100, 0); (110, 0)] in
  kill_isolated_sipms [true; true; true; false] pos 15 = [true; true; false; false] /\
  apply_circular_padding [false; true; false; false] pos 10 = [true; true; false; false].
Proof. split; vm_compute; reflexivity. Qed.

(** the whole spatial selection *)
Theorem C28_spatial_selection pos nsigma d r wfs : length wfs = length pos ->
  let first := median_std_method wfs nsigma in
  exists ids, spatial_selection_method pos (MedianStd nsigma) d r wfs = Ok (ids, map (fun i => nth i wfs []) ids) /\
  StronglySorted lt ids /\
  forall j, In j ids <-> (j < length pos)%nat /\ exists i k, sel first i /\ sel first k /\ i <> k /\
    near d (nth k pos origin) (nth i pos origin) /\ reached r (nth j pos origin) (nth i pos origin).
Proof.
  intros L. cbv zeta. eexists. split; [reflexivity|]. split; [apply where_from_sorted|].
  set (first := median_std_method wfs nsigma).
  assert (Lf : length first = length pos) by (unfold first, median_std_method; now rewrite !map_length).
  destruct (C28_kept_iff_not_isolated first pos d Lf) as [L1 N1].
  destruct (C28_padding (kill_isolated_sipms first pos d) pos r) as (L2 & N2 & _); [congruence|].
  intros j. rewrite in_np_where with (d := false). rewrite L2, L1, Lf. split.
  - intros [Hj H]. split; [assumption|]. apply N2 in H; [|assumption]. destruct H as (i & Hi & Hr). apply N1 in Hi.
    destruct Hi as (Hi & k & Nk & Hk & Hn). exists i, k. repeat (split; [congruence || assumption|]). assumption.
  - intros (Hj & i & k & Hi & Hk & Nik & Hn & Hr). split; [assumption|]. apply N2; [assumption|]. exists i. split; [|assumption].
    apply N1. split; [assumption|]. exists k. split; [congruence|]. split; assumption.
Qed.
Example C28_spatial_ex : spatial_selection_method [(0, 0); (10, 0); (20, 0); (90, 0); (100, 0)] (MedianStd 0) 15 10 [[5; 5]; [9; 9]; [0; 1]; [0; 0]; [7; 0]]
  = Ok ([0%nat; 1%nat; 2%nat], [[5; 5]; [9; 9]; [0; 1]]).
Proof. vm_compute. reflexivity. Qed.

(** every method other than the median one fails *)
Theorem C28_other_methods_refuted pos d r wfs : spatial_selection_method pos AnyOtherMethod d r wfs = Err AttributeError.
Proof. reflexivity. Qed.

(** the first selection: with nsigma >= 0 a selected sensor has at least the charge of half of the sensors *)
Lemma insertQ_perm x l : Permutation (insertQ x l) (x :: l).
Proof.
  induction l as [|y l IH]; cbn [insertQ]; [reflexivity|]. destruct (Qle_bool x y); [reflexivity|].
  rewrite IH. apply perm_swap.
Qed.
Lemma sortQ_perm l : Permutation (sortQ l) l.
Proof. induction l as [|x l IH]; cbn [sortQ]; [reflexivity|]. rewrite insertQ_perm. now constructor. Qed.
Lemma insertQ_sorted x l : StronglySorted Qle l -> StronglySorted Qle (insertQ x l).
Proof.
  induction l as [|y l IH]; intros H; cbn [insertQ]; [repeat constructor|]. apply StronglySorted_inv in H. destruct H as [H F].
  destruct (Qleb_spec x y) as [E|E].
  - constructor; [constructor; assumption|]. constructor; [assumption|]. eapply Forall_impl; [|exact F]. intros z Hz. cbn in Hz. lra.
  - constructor; [now apply IH|]. eapply Permutation_Forall; [symmetry; apply insertQ_perm|]. constructor; [lra|assumption].
Qed.
Lemma sortQ_sorted l : StronglySorted Qle (sortQ l).
Proof. induction l as [|x l IH]; cbn [sortQ]; [constructor|]. now apply insertQ_sorted. Qed.
Lemma sorted_nth_le l : StronglySorted Qle l -> forall i j, (i <= j < length l)%nat -> nth i l 0 <= nth j l 0.
Proof.
  induction 1 as [|a l S IH F]; intros i j Hij; [cbn in Hij; lia|]. destruct j as [|j].
  - replace i with 0%nat by lia. lra.
  - destruct i as [|i]; cbn [nth].
    + rewrite Forall_forall in F. apply F. apply nth_In. cbn in Hij. lia.
    + apply IH. cbn in Hij. lia.
Qed.
Lemma count_perm {A} (p : A -> bool) l m : Permutation l m -> count p l = count p m.
Proof.
  unfold count. induction 1 as [|x l m P IH|x y l|l m n P IH Q' IH']; cbn [filter]; [reflexivity| | |congruence].
  - destruct (p x); cbn; now rewrite IH.
  - destruct (p x), (p y); reflexivity.
Qed.
Lemma count_prefix (p : Q -> bool) l k : (k <= length l)%nat -> (forall i, (i < k)%nat -> p (nth i l 0) = true) -> (k <= count p l)%nat.
Proof.
  revert k; induction l as [|a l IH]; intros k Hk H; [cbn in *; lia|]. destruct k as [|k]; [lia|].
  unfold count. cbn [filter]. rewrite (H 0%nat ltac:(lia) : p a = true). cbn [length]. apply le_n_S. apply IH; [cbn in Hk; lia|].
  intros i Hi. apply (H (S i)). lia.
Qed.

Theorem C28_median_selection wfs nsigma i : 0 <= nsigma -> sel (median_std_method wfs nsigma) i ->
  (length wfs <= 2 * count (fun w => Qle_bool (sumQ w) (sumQ (nth i wfs []))) wfs)%nat.
Proof.
  intros Hn Hi. pose proof (sel_bound _ _ Hi) as Bi. unfold median_std_method in Bi. rewrite !map_length in Bi.
  set (ch := map sumQ wfs).
  assert (Hc : median ch <= sumQ (nth i wfs [])).
  { unfold sel, median_std_method in Hi. fold ch in Hi.
    rewrite nth_indep with (d' := above_sigma (sumQ []) (median ch) nsigma (variance ch)) in Hi by (unfold ch; now rewrite !map_length).
    rewrite map_nth with (f := fun c => above_sigma c (median ch) nsigma (variance ch)) in Hi. unfold ch at 1 in Hi. rewrite map_nth in Hi.
    unfold above_sigma in Hi. destruct (Qleb_spec 0 nsigma); [|exfalso; lra]. apply andb_true_iff in Hi. destruct Hi as [Hi _]. apply Qleb_le in Hi. lra. }
  set (c := sumQ (nth i wfs [])) in *.
  assert (E : count (fun w => Qle_bool (sumQ w) c) wfs = count (fun x => Qle_bool x c) (sortQ ch)).
  { rewrite (count_perm _ _ _ (sortQ_perm ch)). unfold count, ch. clearbody c. clear. induction wfs as [|w l IH]; cbn [map filter]; [reflexivity|].
    destruct (Qle_bool (sumQ w) c); cbn; now rewrite IH. }
  rewrite E. assert (Ls : length (sortQ ch) = length wfs) by (rewrite (Permutation_length (sortQ_perm ch)); apply map_length).
  set (n := length wfs) in *. pose proof (sortQ_sorted ch) as Srt. unfold median in Hc. assert (Lc : length ch = n) by apply map_length. rewrite Lc in Hc.
  assert (B : forall k, (k < n)%nat -> nth k (sortQ ch) 0 <= c -> (S k <= count (fun x => Qle_bool x c) (sortQ ch))%nat).
  { intros k Hk Hle. apply count_prefix; [lia|]. intros j Hj. apply Qleb_le. pose proof (sorted_nth_le _ Srt j k ltac:(lia)). lra. }
  destruct (Nat.even n) eqn:Ev.
  - apply Nat.even_spec in Ev. destruct Ev as [m Em]. assert (n / 2 = m)%nat as Eh by (rewrite Em, Nat.mul_comm; apply Nat.div_mul; lia).
    rewrite Eh in Hc. pose proof (sorted_nth_le _ Srt (m - 1)%nat m ltac:(lia)).
    assert (nth (m - 1) (sortQ ch) 0 <= c).
    { apply Qnot_lt_le. intros C. assert (c < (nth (m - 1) (sortQ ch) 0 + nth m (sortQ ch) 0) / 2); [|lra]. apply Qlt_shift_div_l; lra. }
    specialize (B (m - 1)%nat ltac:(lia) ltac:(assumption)). lia.
  - assert (Nat.odd n = true) as Od by (rewrite <- Nat.negb_even, Ev; reflexivity). apply Nat.odd_spec in Od. destruct Od as [m Em].
    assert (n / 2 = m)%nat as Eh by (rewrite Em; symmetry; apply Nat.div_unique with (r := 1%nat); lia). rewrite Eh in Hc.
    specialize (B m ltac:(lia) ltac:(assumption)). lia.
Qed.

(** ** C59: the n sensors with most charge *)
Lemma set_fold idx : forall m, (forall i, In i idx -> (i < length m)%nat) ->
  length (fold_left (fun m i => upd i true m) idx m) = length m /\
  forall j, sel (fold_left (fun m i => upd i true m) idx m) j <-> sel m j \/ In j idx.
Proof.
  induction idx as [|i idx IH]; intros m Hb; cbn [fold_left].
  - split; [reflexivity|]. intros j. split; [now left|]. intros [H|[]]; assumption.
  - destruct (IH (upd i true m)) as [L N]; [intros k Hk; rewrite length_upd; apply Hb; now right|].
    split; [now rewrite L, length_upd|]. intros j. rewrite N. unfold sel. rewrite nth_upd by (apply Hb; now left).
    destruct (Nat.eqb_spec j i) as [->|Nji]; split.
    + intros _. right. now left.
    + intros _. now left.
    + intros [H|H]; [now left|right; now right].
    + intros [H|[H|H]]; [now left|congruence|now right].
Qed.

Lemma count_true m : count (fun b => b) m = length (np_where (fun b => b) m).
Proof.
  unfold count, np_where. generalize 0%nat. induction m as [|b m IH]; intros k; cbn; [reflexivity|]. destruct b; cbn; now rewrite <- IH.
Qed.

Theorem C59_top_n argsort wfs n : argsort_ok argsort -> (1 <= n)%nat ->
  let out := top_n_method argsort wfs n in
  length out = length wfs /\ count (fun b => b) out = Nat.min n (length wfs) /\
  forall i j, sel out i -> (j < length wfs)%nat -> ~ sel out j -> sumQ (nth j wfs []) <= sumQ (nth i wfs []).
Proof.
  intros Ha Hn. cbv zeta. unfold top_n_method. set (ch := map sumQ wfs). destruct (Ha ch) as [P S].
  assert (Lc : length ch = length wfs) by apply map_length. rewrite Lc in P.
  set (perm := argsort ch) in *. assert (Lp : length perm = length wfs) by (rewrite (Permutation_length P); apply seq_length).
  assert (Hin : forall i, In i perm <-> (i < length wfs)%nat).
  { intros i. split; intros H; [eapply Permutation_in in H; [|exact P]; apply in_seq in H; lia|].
    eapply Permutation_in; [symmetry; exact P|]. apply in_seq. lia. }
  unfold last_n. destruct (Nat.eqb_spec n 0) as [C|_]; [lia|].
  set (k := (length perm - n)%nat). pose proof (firstn_skipn k perm) as Es.
  destruct (set_fold (skipn k perm) (map (fun _ => false) ch)) as [L N].
  { intros i Hi. rewrite map_length, Lc. apply Hin. rewrite <- Es. apply in_app_iff. now right. }
  rewrite map_length, Lc in L. split; [assumption|].
  assert (K : forall j, sel (fold_left (fun m i => upd i true m) (skipn k perm) (map (fun _ => false) ch)) j <-> In j (skipn k perm)).
  { intros j. rewrite N. split; [intros [C|H]; [|assumption]|now right]. exfalso. exact (not_sel_false _ _ C). }
  assert (ND : NoDup perm) by (eapply Permutation_NoDup; [symmetry; exact P|apply seq_NoDup]).
  split.
  - rewrite count_true. set (out := fold_left _ _ _) in *.
    rewrite (Permutation_length (l' := skipn k perm)).
    + rewrite skipn_length. unfold k. lia.
    + apply NoDup_Permutation.
      * pose proof (proj1 (where_from_sorted (fun b : bool => b) out 0)) as SS. fold (np_where (fun b : bool => b) out) in SS.
        induction SS as [|a l SS IH F]; constructor; [|assumption]. rewrite Forall_forall in F. intros C. specialize (F _ C). lia.
      * rewrite <- Es in ND. clear -ND. induction (firstn k perm) as [|x l IH]; [exact ND|]. inversion ND; auto.
      * intros j. rewrite in_np_where with (d := false). rewrite <- K. unfold sel. split; [tauto|]. intros H. split; [now apply sel_bound|assumption].
  - intros i j Hi Hj Hnj. apply K in Hi. assert (Hfj : In j (firstn k perm)).
    { apply Hin in Hj. rewrite <- Es in Hj. apply in_app_iff in Hj. destruct Hj as [H|H]; [assumption|]. exfalso. apply Hnj. now apply K. }
    assert (Q2 : forall m, nth m ch 0 = sumQ (nth m wfs [])) by (intros m; unfold ch; exact (map_nth sumQ wfs [] m)).
    rewrite <- !Q2. rewrite <- Es in S. clear -S Hi Hfj. revert S. generalize dependent (firstn k perm). intros l1 H1 S.
    induction l1 as [|a l1 IH]; [easy|]. cbn in S. apply StronglySorted_inv in S. destruct S as [S F]. destruct H1 as [->|H1]; [|auto].
    rewrite Forall_forall in F. apply F. apply in_app_iff. now right.
Qed.


(** a concrete argsort: insertion of positions by charge *)
Fixpoint insert_by (l : list Q) (i : nat) (idx : list nat) : list nat :=
  match idx with [] => [i] | j :: r => if Qle_bool (nth i l 0) (nth j l 0) then i :: idx else j :: insert_by l i r end.
Definition insertion_argsort (l : list Q) : list nat := fold_right (insert_by l) [] (seq 0 (length l)).
Lemma insertion_argsort_ok : argsort_ok insertion_argsort.
Proof.
  intros l. unfold insertion_argsort.
  assert (P : forall i idx, Permutation (insert_by l i idx) (i :: idx)).
  { intros i idx. induction idx as [|j idx IH]; cbn [insert_by]; [reflexivity|]. destruct (Qle_bool _ _); [reflexivity|]. rewrite IH. apply perm_swap. }
  induction (seq 0 (length l)) as [|i s [IHp IHs]]; cbn [fold_right]; [split; [reflexivity|constructor]|]. split.
  - rewrite P. now constructor.
  - set (r := fold_right (insert_by l) [] s) in *. clearbody r. clear IHp.
    induction IHs as [|j r S IH F]; cbn [insert_by]; [repeat constructor|].
    destruct (Qleb_spec (nth i l 0) (nth j l 0)) as [E|E].
    + constructor; [constructor; assumption|]. constructor; [assumption|]. eapply Forall_impl; [|exact F]. cbn. intros k Hk. lra.
    + constructor; [assumption|]. eapply Permutation_Forall; [symmetry; apply P|]. constructor; [lra|assumption].
Qed.
Example C59_ex : top_n_method insertion_argsort [[1; 2]; [7; 1]; [0; 0]; [4; 1]] 2 = [false; true; false; true].
Proof. vm_compute. reflexivity. Qed.

(** asking for no sensor selects all of them *)
Theorem C59_zero_refuted argsort wfs : argsort_ok argsort -> top_n_method argsort wfs 0 = map (fun _ => true) wfs.
Proof.
  intros Ha. unfold top_n_method, last_n. cbn [Nat.eqb]. set (ch := map sumQ wfs). destruct (Ha ch) as [P _].
  assert (Lc : length ch = length wfs) by apply map_length. rewrite Lc in P.
  destruct (set_fold (argsort ch) (map (fun _ => false) ch)) as [L N].
  { intros i Hi. rewrite map_length, Lc. eapply Permutation_in in Hi; [|exact P]. apply in_seq in Hi. lia. }
  rewrite map_length, Lc in L. apply mask_ext; [now rewrite L, map_length|]. intros i. rewrite N. split.
  - intros H. assert (Hi : (i < length wfs)%nat).
    { destruct H as [C|Hi]; [exfalso; exact (not_sel_false _ _ C)|]. eapply Permutation_in in Hi; [|exact P]. apply in_seq in Hi. lia. }
    clear -Hi. unfold sel. revert i Hi. induction wfs as [|w l IH]; intros [|i] Hi; cbn in *; [lia|lia|reflexivity|]. apply IH. lia.
  - intros H. right. apply sel_bound in H. rewrite map_length in H. eapply Permutation_in; [symmetry; exact P|]. apply in_seq. lia.
Qed.

(** ** C60: SiPM selection by thresholds *)
Theorem C60_charge_threshold m thrs ithr : length thrs = length (rows m) ->
  let signal wf thr := sumF (fun x => if Qltb thr x then x else 0) wf in
  exists ids out, charge_threshold_method m thrs ithr = Ok (ids, out) /\
  StronglySorted lt ids /\
  (forall i, In i ids <-> (i < length (rows m))%nat /\ ithr <= signal (nth i (rows m) []) (nth i thrs 0)) /\
  Forall2 (fun i row => row = map (fun x => if Qltb (nth i thrs 0) x then x else 0) (nth i (rows m) [])) ids (rows out).
Proof.
  intros L. cbv zeta. unfold charge_threshold_method, zero_wfs_below_threshold. rewrite L, Nat.eqb_refl. cbn [rbind].
  unfold select_wfs_above_time_integrated_thr. cbn [rows cols].
  set (f := fun wf thr => map (fun x => if Qltb thr x then x else 0) wf).
  set (z := map2 f (rows m) thrs).
  assert (Lz : length z = length (rows m)) by (unfold z; rewrite length_map2_eq; congruence).
  assert (Nz : forall i, (i < length (rows m))%nat -> nth i z [] = f (nth i (rows m) []) (nth i thrs 0)).
  { intros i Hi. unfold z. apply nth_map2; congruence. }
  eexists _, _. split; [reflexivity|]. cbn [rows]. split; [apply where_from_sorted|]. split.
  - intros i. rewrite in_np_where with (d := []). rewrite Lz. split; intros [H1 H2]; (split; [assumption|]).
    + apply Qleb_le in H2. rewrite Nz in H2 by assumption. exact H2.
    + apply Qleb_le. rewrite Nz by assumption. exact H2.
  - assert (K : forall l k, (forall i, (i < length l)%nat -> nth i l [] = f (nth (k + i) (rows m) []) (nth (k + i) thrs 0)) ->
       Forall2 (fun i row => row = f (nth i (rows m) []) (nth i thrs 0)) (where_from k (fun r => Qle_bool ithr (sumQ r)) l) (filter (fun r => Qle_bool ithr (sumQ r)) l)).
    { induction l as [|a l IH]; intros k H; cbn [where_from filter]; [constructor|].
      assert (IH' : Forall2 (fun i row => row = f (nth i (rows m) []) (nth i thrs 0)) (where_from (S k) (fun r => Qle_bool ithr (sumQ r)) l) (filter (fun r => Qle_bool ithr (sumQ r)) l)).
      { apply IH. intros i Hi. specialize (H (S i) ltac:(cbn; lia)). rewrite Nat.add_succ_r in H. exact H. }
      destruct (Qle_bool ithr (sumQ a)); [|assumption]. constructor; [|assumption].
      specialize (H 0%nat ltac:(cbn; lia)). rewrite Nat.add_0_r in H. exact H. }
    apply K. intros i Hi. rewrite Nz by congruence. reflexivity.
Qed.
Example C60_ex : charge_threshold_method {| cols := 2; rows := [[1; 5]; [2; 2]; [9; 9]] |} [3; 1; 20] 4 =
  Ok ([0%nat; 1%nat], {| cols := 2; rows := [[0; 5]; [2; 2]] |}).
Proof. vm_compute. reflexivity. Qed.

Print Assumptions C27_zero_suppression.
Print Assumptions C27_all_waveforms.
Print Assumptions C27_symmetric_padding_refuted.
Print Assumptions C28_kept_iff_not_isolated.
Print Assumptions C28_idempotent.
Print Assumptions C28_padding.
Print Assumptions C28_spatial_selection.
Print Assumptions C28_other_methods_refuted.
Print Assumptions C28_median_selection.
Print Assumptions C59_top_n.
Print Assumptions C59_zero_refuted.
Print Assumptions C60_charge_threshold.
