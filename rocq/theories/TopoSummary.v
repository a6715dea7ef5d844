(** What is written about an event (C69) *)
From Verif Require Import Base PeaksModel Arrays CorrModel PaolinaModel PaolinaSpec PaolinaProps BuffersEvent PmapioProofs DbModel DbProps TopoModel TopoSpec TopoTrack TopoProps.
From Coq Require Import Sorted.
Local Open Scope Q_scope.

Section Perm.
  Variables (l m : list ohit) (P : Permutation l m).
  Lemma perm_in o : In o m <-> In o l.
  Proof using P. split; apply Permutation_in; [now symmetry|assumption]. Qed.
  Lemma smallest_perm f q : smallest f l q -> smallest f m q.
  Proof using P. intros [A (o & Ho & E)]. split; [intros x Hx; apply A; now apply perm_in|]. exists o. split; [now apply perm_in|assumption]. Qed.
  Lemma largest_perm f q : largest f l q -> largest f m q.
  Proof using P. intros [A (o & Ho & E)]. split; [intros x Hx; apply A; now apply perm_in|]. exists o. split; [now apply perm_in|assumption]. Qed.
  Lemma box_perm lo hi : box l lo hi -> box m lo hi.
  Proof using P. intros (A1 & A2 & A3 & A4 & A5 & A6). repeat split; try (now apply smallest_perm); now apply largest_perm. Qed.
  Lemma centre_perm w q : centre w l q -> centre w m q.
  Proof using P. unfold centre, weighted. intros (A1 & A2 & A3). rewrite !(sumF_perm _ l m P) in *. auto. Qed.
End Perm.
Lemma filter_perm {A} (p : A -> bool) l m : Permutation l m -> Permutation (filter p l) (filter p m).
Proof. induction 1; cbn; [constructor| | |]; [destruct (p x); [now constructor|assumption]|destruct (p x), (p y); try constructor; reflexivity|now rewrite IHPermutation1]. Qed.
Lemma event_tracks_perm round5 event hits rows l m flag : Permutation l m -> event_tracks round5 event hits rows l flag -> event_tracks round5 event hits rows m flag.
Proof.
  intros P (A1 & A2 & A3 & A4 & A5 & A6 & A7 & A8 & A9). split; [assumption|]. split; [rewrite <- A2; apply Permutation_map; now symmetry|].
  split; [intros o Ho; apply A3; now apply (perm_in l m P)|]. do 4 (split; [assumption|]). split; [intros o Ho; apply A8; now apply (perm_in l m P)|].
  intros k Hk. destruct (A9 k Hk) as (B1 & B2 & B3 & B4 & B5 & B6 & B7 & B8). assert (PF := filter_perm (fun o => (o_track o =? Z.of_nat (k_id k))%Z) l m P). fold (of_track (k_id k) l) in PF. fold (of_track (k_id k) m) in PF.
  split; [assumption|]. split; [assumption|]. cbv zeta. split; [intros E; rewrite E in PF; apply Permutation_sym, Permutation_nil in PF; contradiction|].
  split; [now rewrite B4, (Permutation_length PF)|]. split; [rewrite B5; now apply sumF_perm|]. split; [now apply (box_perm _ _ PF)|]. split; [now apply (centre_perm _ _ PF)|]. exact B8.
Qed.

Lemma min_of_col_spec f l : l <> [] -> smallest f l (min_of_col f l).
Proof.
  destruct l as [|h l]; [easy|]. intros _. cbn [min_of_col].
  assert (E : fold_left (fun m g => Qmin m (f g)) l (f h) = fold_left Qmin (map f l) (f h)) by (generalize (f h); induction l as [|g l IH]; intros q; cbn; [reflexivity|apply IH]).
  rewrite E. split.
  - destruct (BuffersEvent.fold_min (map f l) (f h)) as [A B]. intros g [<-|Hg]; [assumption|apply B; now apply in_map].
  - pose proof (PaolinaDrop.fold_min_in (map f l) (f h)) as H. change (f h :: map f l) with (map f (h :: l)) in H. apply in_map_iff in H. destruct H as (g & Eg & Hg). exists g. now rewrite Eg.
Qed.
Lemma max_of_col_spec f l : l <> [] -> largest f l (max_of_col f l).
Proof.
  destruct l as [|h l]; [easy|]. intros _. cbn [max_of_col].
  assert (E : fold_left (fun m g => Qmax m (f g)) l (f h) = fold_left Qmax (map f l) (f h)) by (generalize (f h); induction l as [|g l IH]; intros q; cbn; [reflexivity|apply IH]).
  rewrite E. split.
  - destruct (BuffersEvent.fold_max (map f l) (f h)) as [A B]. intros g [<-|Hg]; [assumption|apply B; now apply in_map].
  - pose proof (fold_max_in (map f l) (f h)) as H. change (f h :: map f l) with (map f (h :: l)) in H. apply in_map_iff in H. destruct H as (g & Eg & Hg). exists g. now rewrite Eg.
Qed.

Definition ec (o : ohit) : Q := match o_ec o with Some e => e | None => 0 end.
(** the order of the hits written: by Z, then X, then Y *)
Definition before (a b : ohit) : Prop := zof a < zof b \/ (zof a == zof b /\ (xof a < xof b \/ (xof a == xof b /\ yof a <= yof b))).
Lemma lex_le_before a b : lex_le (o_pos a) (o_pos b) = true <-> before a b.
Proof.
  unfold lex_le, before, xof, yof, zof. destruct (o_pos a) as [[x y] z], (o_pos b) as [[x' y'] z']. cbn [fst snd]. rewrite orb_true_iff, andb_true_iff, orb_true_iff, andb_true_iff, !Qltb_lt, !Qeqb_eq, Qle_bool_iff. reflexivity.
Qed.
Lemma sort_hits_sorted l : StronglySorted before (sort_hits l).
Proof.
  assert (S : StronglySorted (fun a b => lex_le (o_pos a) (o_pos b) = true) (sort_hits l)).
  { apply (sort_by_sorted (fun a b => lex_le (o_pos a) (o_pos b))).
    - intros a b. rewrite !lex_le_before. unfold before. destruct (Q_dec (zof a) (zof b)) as [[?|?]|?]; [left; now left|right; now left|].
      destruct (Q_dec (xof a) (xof b)) as [[?|?]|?]; [left; right; split; [assumption|now left]|right; right; split; [now symmetry|now left]|].
      destruct (Qlt_le_dec (yof a) (yof b)); [left; right; split; [assumption|]; right; split; [assumption|lra]|right; right; split; [now symmetry|]; right; split; [now symmetry|assumption]].
    - intros a b c. rewrite !lex_le_before. unfold before.
      intros [H|[H1 [H2|[H2 H3]]]] [K|[K1 [K2|[K2 K3]]]]; try (left; lra); right; (split; [lra|]); try (left; lra); right; split; lra. }
  revert S. generalize (sort_hits l). intros m S. induction S as [|a m S IH F]; constructor; [assumption|]. rewrite Forall_forall in *. intros b Hb. now apply lex_le_before, F.
Qed.

(** the summary of the hits written *)
Theorem C69_summary event rows hits flag : hits <> [] -> (forall o e, In o hits -> o_ec o = Some e -> 0 < e) ->
  exists s, make_event_summary event rows hits flag = Ok [s] /\
    s_event s = event /\ s_oom s = flag /\ s_ntrks s = length rows /\ s_nhits s = length hits /\ s_ec s == sumF ec hits /\ box hits (s_min s) (s_max s) /\
    ((exists o, In o hits /\ o_ec o = None) -> s_ave s = (None, None, None)) /\
    ((forall o, In o hits -> o_ec o <> None) -> exists x y z, s_ave s = (Some x, Some y, Some z) /\ centre ec hits (x, y, z)).
Proof.
  intros Hne Hpos.
  assert (Bx : box hits (min_of_col xof hits, min_of_col yof hits, min_of_col zof hits) (max_of_col xof hits, max_of_col yof hits, max_of_col zof hits)).
  { unfold box. cbn [fst snd]. repeat split; try (now apply min_of_col_spec); now apply max_of_col_spec. }
  unfold make_event_summary. destruct hits as [|h0 l] eqn:Eh; [easy|]. rewrite <- Eh in *. unfold average.
  destruct (existsb (fun o => match o_ec o with None => true | Some _ => false end) hits) eqn:Ex.
  - cbn [rbind]. eexists. split; [reflexivity|]. cbn [s_event s_oom s_ntrks s_nhits s_ec s_min s_max s_ave]. do 5 (split; [reflexivity|]). split; [exact Bx|]. split; [reflexivity|]. intros H.
    apply existsb_exists in Ex. destruct Ex as (o & Ho & E). exfalso. apply (H o Ho). now destruct (o_ec o).
  - assert (All : forall o, In o hits -> exists e, o_ec o = Some e /\ 0 < e).
    { intros o Ho. destruct (o_ec o) as [e|] eqn:E; [exists e; split; [reflexivity|now apply (Hpos o)]|]. exfalso. assert (existsb (fun o => match o_ec o with None => true | Some _ => false end) hits = true); [|congruence]. apply existsb_exists. exists o. now rewrite E. }
    assert (T : 0 < sumF (fun o => or0 (o_ec o)) hits).
    { apply PaolinaDrop.sumF_pos with h0; [|rewrite Eh; now left]. intros o Ho. destruct (All o Ho) as (e & -> & P). exact P. }
    cbv zeta. destruct (Qeqb_spec (sumF (fun o => or0 (o_ec o)) hits) 0) as [C|_]; [lra|]. cbn [rbind]. eexists. split; [reflexivity|]. cbn [s_event s_oom s_ntrks s_nhits s_ec s_min s_max s_ave]. do 5 (split; [reflexivity|]). split; [exact Bx|]. split.
    + intros (o & Ho & E). destruct (All o Ho) as (e & E' & _). congruence.
    + intros _. do 3 eexists. split; [reflexivity|]. unfold centre, weighted. cbn [fst snd]. change (sumF ec hits) with (sumF (fun o => or0 (o_ec o)) hits). repeat split; (field_simplify_eq; [|lra]); reflexivity.
Qed.
Print Assumptions C69_summary.

Theorem C69_no_hits_left event rows flag : make_event_summary event rows [] flag = Ok [].
Proof. reflexivity. Qed.

(** the summary, the hits and the tracks written agree with each other *)
Theorem C69_event_written round5 paths norm dims strict thr min_voxels blob_radius scan_radius max_num_hits t event hits :
  paths_ok paths -> paths_metric paths -> (forall s, 0 <= norm s) -> 0 < blob_radius -> (forall r, scan_radius = Some r -> 0 <= r) -> positive_dims dims ->
  (Z.of_nat (length hits) <= max_num_hits)%Z ->
  (forall h e, In h (copy_Efield t hits) -> tEp h = Some e -> 0 < e) -> (exists h e, In h (copy_Efield t hits) /\ tEp h = Some e) ->
  exists w s, write_tracks_info round5 paths norm dims strict thr min_voxels blob_radius scan_radius max_num_hits t event hits = Ok w /\
    w_hits_passed w = true /\ w_summary w = [s] /\ w_topology w = [true] /\
    event_tracks round5 event (copy_Efield t hits) (w_tracks w) (w_hits w) (s_oom s) /\ StronglySorted before (w_hits w) /\
    s_event s = event /\ s_ntrks s = length (w_tracks w) /\ s_nhits s = length hits /\ s_ec s == energy_in_map (copy_Efield t hits) /\ box (w_hits w) (s_min s) (s_max s) /\
    (if s_oom s then s_ave s = (None, None, None) else exists x y z, s_ave s = (Some x, Some y, Some z) /\ centre ec (w_hits w) (x, y, z)).
Proof.
  intros Hpaths Hmetric Hnorm Hblob Hscan Hd Hmax Hpos Hex.
  assert (Lc : length (copy_Efield t hits) = length hits) by apply map_length.
  destruct (C68_tracks_of_an_event round5 paths norm dims strict thr min_voxels blob_radius scan_radius max_num_hits event (copy_Efield t hits) Hpaths Hmetric Hnorm Hblob Hscan Hd ltac:(lia) Hpos Hex) as (rows & out & flag & E & T & _).
  assert (PS : Permutation out (sort_hits out)) by (symmetry; apply sort_by_perm).
  apply (event_tracks_perm _ _ _ _ _ _ _ PS) in T. assert (T' := T). destruct T' as (A1 & A2 & A3 & A4 & _ & _ & A7 & _ & _).
  assert (Hc : forall h, In h (copy_Efield t hits) -> tEc h = tEp h) by (intros h Hh; apply in_map_iff in Hh; destruct Hh as (g & <- & _); reflexivity).
  assert (Len : length (sort_hits out) = length hits) by (rewrite <- Lc, <- (seq_length (length (copy_Efield t hits)) 0), <- (Permutation_length A2); now rewrite map_length).
  assert (Hne : sort_hits out <> []).
  { intros C. rewrite C in Len. destruct hits; [|discriminate]. destruct Hex as (h & e & [] & _). }
  assert (HEc : forall o, In o (sort_hits out) -> exists h, In h (copy_Efield t hits) /\ nth_error (copy_Efield t hits) (o_row o) = Some h /\ o_ec o = tEp h).
  { intros o Ho. destruct (A3 o Ho) as (h & Eh & _ & Eo & _). exists h. assert (I : In h (copy_Efield t hits)) by now apply nth_error_In in Eh. split; [assumption|]. split; [assumption|]. now rewrite Eo, Hc. }
  destruct (C69_summary event rows (sort_hits out) flag Hne) as (s & Es & B1 & B2 & B3 & B4 & B5 & B6 & B7 & B8).
  { intros o e Ho Eo. destruct (HEc o Ho) as (h & Hh & _ & Eh). apply (Hpos h e Hh). congruence. }
  exists {| w_hits_passed := true; w_summary := [s]; w_topology := [negb (length rows =? 0)%nat]; w_hits := sort_hits out; w_tracks := rows |}, s.
  split. { unfold write_tracks_info. destruct hits as [|h0 hl]; [destruct Hex as (h & e & [] & _)|]. rewrite E. cbn [rbind]. rewrite Es. reflexivity. }
  cbn [w_hits_passed w_summary w_topology w_hits w_tracks]. split; [reflexivity|]. split; [reflexivity|]. split; [destruct rows; [easy|reflexivity]|]. rewrite B2. split; [exact T|]. split; [apply sort_hits_sorted|].
  split; [assumption|]. split; [assumption|]. split; [congruence|]. split.
  { rewrite B5. unfold energy_in_map.
    assert (G : sumF ec (sort_hits out) == sumF (fun i => match tEp (row (copy_Efield t hits) i) with Some e => e | None => 0 end) (map o_row (sort_hits out))).
    { rewrite sumF_map. apply sumF_ext. intros o Ho. destruct (HEc o Ho) as (h & _ & En & Eo). unfold ec. rewrite Eo, (row_at _ _ _ En). reflexivity. }
    rewrite G, (sumF_perm _ _ _ A2). clear. unfold row. set (d := {| tX := 0; tY := 0; tZ := 0; tE := 0; tEc := None; tEp := None; tother := 0 |}). clearbody d. generalize (copy_Efield t hits). intros l.
    unfold sumF. now rewrite (map_nth_seq (fun h => match tEp h with Some e => e | None => 0 end)). }
  split; [assumption|]. destruct flag.
  - apply B7. destruct A1 as [A1 _]. destruct (A1 eq_refl) as (h & Hh & En). apply In_nth_error in Hh. destruct Hh as (i & Hi).
    assert (Ii : In i (map o_row (sort_hits out))) by (apply (Permutation_in _ (Permutation_sym A2)), in_seq; assert (i < length (copy_Efield t hits))%nat by (apply nth_error_Some; congruence); lia).
    apply in_map_iff in Ii. destruct Ii as (o & Eo & Ho). exists o. split; [assumption|]. destruct (HEc o Ho) as (h' & _ & En' & Eo'). rewrite Eo in En'. congruence.
  - apply B8. intros o Ho C. destruct (HEc o Ho) as (h & Hh & _ & Eh). assert (false = true) by (apply A1; exists h; split; [assumption|congruence]). discriminate.
Qed.
Print Assumptions C69_event_written.

(** an event without hits only leaves its flag *)
Theorem C69_event_without_hits round5 paths norm dims strict thr min_voxels blob_radius scan_radius max_num_hits t event :
  write_tracks_info round5 paths norm dims strict thr min_voxels blob_radius scan_radius max_num_hits t event [] =
  Ok {| w_hits_passed := false; w_summary := []; w_topology := []; w_hits := []; w_tracks := [] |}.
Proof. reflexivity. Qed.

Example C69_four_hits : (forall h e, In h (copy_Efield HEc four_hits) -> tEp h = Some e -> 0 < e) /\
  match write_tracks_info (fun x => x) unit_paths (fun _ => 1) (1, 1, 1) true 0 1 1 None 10 HEc 7 four_hits with
  | Ok w => (map o_row (w_hits w), map s_nhits (w_summary w), map s_ntrks (w_summary w), map s_oom (w_summary w)) = ([0; 1; 2; 3]%nat, [4]%nat, [2]%nat, [true])
  | Err _ => False
  end.
Proof.
  split; [|vm_compute; reflexivity]. intros h e [<-|[<-|[<-|[<-|[]]]]] E; try discriminate; injection E as <-; reflexivity.
Qed.
Print Assumptions C69_no_hits_left.
Print Assumptions C69_event_without_hits.
