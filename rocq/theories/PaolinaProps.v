(** C20-C24: voxels, tracks, extremes, end-point voxels and blobs *)
From Verif Require Import Base PeaksModel BuffersModel BuffersProofs BuffersProps Arrays PaolinaModel PaolinaSpec PaolinaVoxels PaolinaTracks PaolinaDrop.
From Coq Require Import Relations.
Local Open Scope Q_scope.

(** ** C20 *)
Lemma edge_unique a i j x : (1 <= an a)%nat -> alo a < ahi a ->
  edge a i <= x < edge a (S i) -> edge a j <= x < edge a (S j) -> i = j.
Proof.
  intros H1 H2 Hi Hj. destruct (Nat.lt_trichotomy i j) as [C|[C|C]]; [|assumption|].
  - pose proof (edge_le a H1 H2 (S i) j C). lra.
  - pose proof (edge_le a H1 H2 (S j) i C). lra.
Qed.

Lemma voxel_holds hits dims strict (Hne : hits <> []) (Hd : 0 < fst (fst dims) /\ 0 < snd (fst dims) /\ 0 < snd dims) v h :
  In v (voxels hits dims strict) -> In h hits -> inside v h -> In h (vhits v).
Proof.
  intros Hv Hh Hin. destruct (in_voxels hits dims strict v Hv) as (i & j & k & n & -> & _).
  destruct (hit_index hits dims strict Hne Hd h Hh) as (i' & j' & k' & _ & E2 & _ & B1 & B2 & B3).
  destruct (ax_a hits dims strict Hne Hd) as (A1 & A2 & _), (ax_b hits dims strict Hne Hd) as (B1' & B2' & _), (ax_c hits dims strict Hne Hd) as (C1 & C2 & _).
  pose proof (ax_eq hits dims strict) as Eax. set (ax := make_axes dims strict hits) in *.
  destruct ax as [[a b] c]. cbn [fst snd] in *. cbn [make_voxel vhits]. apply filter_In. split; [assumption|]. apply index_eqb_eq. rewrite E2.
  unfold inside in Hin. cbn [make_voxel vx vy vz szx szy szz] in Hin. rewrite !bin_centre_w, !bin_size_w in Hin by assumption.
  assert (K : forall e w x, e + w / 2 - w / 2 <= x < e + w / 2 + w / 2 -> e <= x < e + w).
  { clear. intros e w x. setoid_replace (e + w / 2 - w / 2) with e by ring. setoid_replace (e + w / 2 + w / 2) with (e + w) by field. auto. }
  destruct Hin as (I1 & I2 & I3). apply K in I1. apply K in I2. apply K in I3. rewrite <- edge_S in I1, I2, I3 by assumption.
  rewrite (edge_unique a i i' (px h)), (edge_unique b j j' (py h)), (edge_unique c k k' (pz h)) by assumption. reflexivity.
Qed.

Lemma bin_size_bounds dim strict coords : 0 < dim -> coords <> [] ->
  let a := make_axis dim strict coords in
  0 < bin_size a <= dim + 2 * vox_eps /\ (strict = true -> dim <= bin_size a).
Proof.
  intros Hd Hne. cbv zeta. destruct (make_axis_ok dim strict coords Hd Hne) as (H1 & H2 & _). rewrite bin_size_w by assumption.
  split; [split; [now apply w_pos|]|].
  - assert (Hn := qnat_pos _ H1). unfold make_axis in *. destruct coords as [|c l]; [easy|].
    set (mn := fold_left Qmin l c) in *. set (mx := fold_left Qmax l c) in *. cbn [an alo ahi] in *.
    set (n := Nat.max 1 (Z.to_nat (Qceiling ((mx - mn) / dim)))) in *.
    apply Qle_shift_div_r; [assumption|].
    assert (Hs : mx - mn <= qnat n * dim).
    { assert ((mx - mn) / dim <= qnat n).
      { eapply Qle_trans; [apply Qle_ceiling|]. unfold qnat. rewrite <- Zle_Qle. unfold n. lia. }
      apply Qle_trans with ((mx - mn) / dim * dim); [|nra]. setoid_replace ((mx - mn) / dim * dim) with (mx - mn) by (field; lra). lra. }
    assert (He : 0 < vox_eps) by reflexivity.
    assert (1 <= qnat n) by (change 1 with (qnat 1); now apply qnat_le).
    assert (vox_eps <= vox_eps * qnat n) by nra. unfold Qdiv. change (/ 2) with (1 # 2). destruct strict; nra.
  - intros ->. assert (Hn := qnat_pos _ H1). unfold make_axis in *. destruct coords as [|c l]; [easy|].
    set (mn := fold_left Qmin l c) in *. set (mx := fold_left Qmax l c) in *. cbn [an alo ahi] in *.
    set (n := Nat.max 1 (Z.to_nat (Qceiling ((mx - mn) / dim)))) in *.
    apply Qle_shift_div_l; [assumption|]. assert (He : 0 < vox_eps) by reflexivity.
    unfold Qdiv. change (/ 2) with (1 # 2). nra.
Qed.

Definition positive_dims (dims : Q * Q * Q) : Prop := 0 < fst (fst dims) /\ 0 < snd (fst dims) /\ 0 < snd dims.

(** the voxel size is the requested one up to the margin of 3e-12 on each side; with strict it is
    not below it, otherwise it can only shrink *)
Definition size_as_asked (dims : Q * Q * Q) (strict : bool) (v : voxel) : Prop :=
  let ok d s := 0 < s <= d + 2 * vox_eps /\ (strict = true -> d <= s) in
  ok (fst (fst dims)) (szx v) /\ ok (snd (fst dims)) (szy v) /\ ok (snd dims) (szz v).

Theorem C20_voxels_hold_the_hits hits dims strict : hits <> [] -> positive_dims dims ->
  exists vs, voxelize_hits hits dims strict = Ok vs /\
    voxels_energy vs == hits_energy hits /\
    (forall v, In v vs -> vE v == hits_energy (vhits v) /\ ~ vE v == 0 /\ size_as_asked dims strict v /\
                          forall h, In h (vhits v) <-> In h hits /\ inside v h) /\
    NoDup (map vid vs) /\ same_size vs /\
    (forall u v h, In u vs -> In v vs -> inside u h -> inside v h -> In h hits -> u = v) /\
    ((forall h, In h hits -> 0 < pe h) -> Permutation (flat_map vhits vs) hits /\ forall v, In v vs -> filled v).
Proof.
  intros Hne Hd. exists (voxels hits dims strict). split; [now apply voxelize_eq|]. split; [now apply voxels_total|].
  assert (HE : forall v, In v (voxels hits dims strict) -> vE v == hits_energy (vhits v) /\ ~ vE v == 0).
  { intros v Hv. destruct (in_voxels hits dims strict v Hv) as (i & j & k & n & -> & Hi). unfold filled_bins in Hi. apply filter_In in Hi. destruct Hi as [_ Hi].
    pose proof (content_hits hits dims strict Hne Hd (i, j, k)) as EC. unfold hits_at in EC.
    set (ax := make_axes dims strict hits) in *. destruct ax as [[a b] c]. cbn [make_voxel vE vhits]. split; [exact EC|].
    intros C. destruct (Qeqb_spec (hist_content (a, b, c) hits (i, j, k)) 0); [discriminate|contradiction]. }
  split.
  { intros v Hv. split; [now apply HE|]. split; [now apply HE|]. split.
    - destruct (in_voxels hits dims strict v Hv) as (i & j & k & n & -> & _). destruct dims as [[dx dy] dz]. destruct Hd as (D1 & D2 & D3). cbn [fst snd] in *.
      unfold size_as_asked, make_axes, make_voxel. cbn [fst snd szx szy szz].
      assert (Hm : forall f : phit -> Q, map f hits <> []) by (intros f; destruct hits; [easy|discriminate]).
      split; [|split]; apply bin_size_bounds; auto.
    - intros h. split; [intros Hh; destruct (voxel_inside hits dims strict Hne Hd v h Hv Hh); auto|intros []; now apply (voxel_holds hits dims strict)]. }
  split.
  { assert (E : map vid (voxels hits dims strict) = seq 0 (length (voxels hits dims strict))).
    { unfold voxels, mapi. generalize (make_axes dims strict hits). intros ax. generalize 0%nat. induction (filled_bins hits dims strict) as [|[[i j] k] l IH]; intros n; cbn [mapi_from map length seq]; [reflexivity|].
      rewrite IH. f_equal. destruct ax as [[? ?] ?]. reflexivity. }
    rewrite E. apply seq_NoDup. }
  split.
  { intros u v Hu Hv. destruct (in_voxels hits dims strict u Hu) as (i & j & k & n & -> & _), (in_voxels hits dims strict v Hv) as (i' & j' & k' & n' & -> & _).
    set (ax := make_axes dims strict hits). destruct ax as [[a b] c]. cbn [make_voxel szx szy szz]. repeat split; reflexivity. }
  split.
  { intros u v h Hu Hv Iu Iv Hh. pose proof (voxel_holds hits dims strict Hne Hd u h Hu Hh Iu) as Ku. pose proof (voxel_holds hits dims strict Hne Hd v h Hv Hh Iv) as Kv.
    unfold voxels, mapi in Hu, Hv. revert Hu Hv. generalize 0%nat.
    assert (NDb : NoDup (filled_bins hits dims strict)) by (apply NoDup_filter, NoDup_grid).
    assert (Kn : forall n i, In h (vhits (make_voxel (make_axes dims strict hits) hits n i)) -> digit_index (make_axes dims strict hits) h = i).
    { intros n [[x y] z]. destruct (make_axes dims strict hits) as [[? ?] ?]. unfold make_voxel. cbn [vhits]. intros F. apply filter_In in F. now apply index_eqb_eq. }
    revert Kn. generalize (make_axes dims strict hits). intros ax Kn. induction NDb as [|i l Hi Hl IH]; intros n; cbn [mapi_from In]; [easy|].
    assert (Kin : forall w m, In h (vhits w) -> In w (mapi_from m (make_voxel ax hits) l) -> In (digit_index ax h) l).
    { clear -Kn. intros w. induction l as [|x l IH]; intros m Hw; cbn; [easy|]. intros [<-|H]; [left; symmetry; exact (Kn _ _ Hw)|right; eauto]. }
    intros [<-|Hu] [<-|Hv]; [reflexivity| | |now apply (IH (S n))]; exfalso; apply Hi.
    - rewrite <- (Kn n i Ku). exact (Kin v _ Kv Hv).
    - rewrite <- (Kn n i Kv). exact (Kin u _ Ku Hu). }
  intros Hp. assert (Hpf : forall i, In i (grid (make_axes dims strict hits)) -> hits_at hits dims strict i <> [] -> 0 < hist_content (make_axes dims strict hits) hits i).
  { intros i _ Hi. rewrite content_hits by assumption. unfold hits_energy. destruct (hits_at hits dims strict i) as [|h l] eqn:E; [easy|].
    apply sumF_pos with h; [|now left]. intros x Hx. apply Hp. rewrite <- E in Hx. unfold hits_at in Hx. apply filter_In in Hx. apply Hx. }
  split.
  - rewrite flat_map_concat_map, (voxels_hits hits dims strict), <- flat_map_concat_map.
    pose proof (groups_perm hits dims strict Hne Hd) as P. set (G := hits_at hits dims strict) in *.
    transitivity (flat_map G (grid (make_axes dims strict hits))); [|exact P].
    assert (K : flat_map G (filled_bins hits dims strict) = flat_map G (grid (make_axes dims strict hits))); [|now rewrite K].
    unfold filled_bins. revert Hpf. generalize (grid (make_axes dims strict hits)). intros l. induction l as [|i l IH]; intros Hpf; cbn [filter flat_map]; [reflexivity|].
    rewrite <- IH by (intros; apply Hpf; [now right|assumption]).
    destruct (Qeqb_spec (hist_content (make_axes dims strict hits) hits i) 0) as [C|C]; cbn [negb]; [|reflexivity].
    destruct (G i) as [|h r] eqn:E; [reflexivity|]. exfalso. assert (Hne' : G i <> []) by (rewrite E; discriminate). pose proof (Hpf i (or_introl eq_refl) Hne'). lra.
  - intros v Hv. destruct (HE v Hv) as [E1 E2]. split; [|split; [|assumption]].
    + intros C. apply E2. rewrite E1, C. reflexivity.
    + intros h Hh. apply Hp. now destruct (voxel_inside hits dims strict Hne Hd v h Hv Hh).
Qed.
Print Assumptions C20_voxels_hold_the_hits.

Theorem C20_no_hits dims strict : voxelize_hits [] dims strict = Err NoHits.
Proof. reflexivity. Qed.

(** without positive energies a hit can be lost: the energies of a voxel can cancel *)
Theorem C20_cancelling_energies_refuted :
  exists hits vs, hits <> [] /\ voxelize_hits hits (1, 1, 1) true = Ok vs /\ flat_map vhits vs = [] /\ (length hits = 2)%nat.
Proof. exists [{| px := 0; py := 0; pz := 0; pe := 1; pother := 0 |}; {| px := 0; py := 0; pz := 0; pe := -(1); pother := 1 |}]. eexists. split; [discriminate|]. split; [vm_compute; reflexivity|]. split; reflexivity. Qed.

Definition hit_at (x y z e : Q) : phit := {| px := x; py := y; pz := z; pe := e; pother := 0 |}.
Definition three_hits : list phit := [hit_at 0 0 0 1; hit_at 10 0 0 2; hit_at 10 1 0 3].
Example C20_three_hits : three_hits <> [] /\ positive_dims (4, 4, 4) /\ (forall h, In h three_hits -> 0 < pe h) /\
  exists vs, voxelize_hits three_hits (4, 4, 4) true = Ok vs /\ map (fun v => length (vhits v)) vs = [1; 2]%nat.
Proof.
  split; [discriminate|]. split; [now vm_compute|]. split; [intros h [<-|[<-|[<-|[]]]]; reflexivity|].
  eexists. split; [vm_compute; reflexivity|reflexivity].
Qed.

(** ** C21 *)
Theorem C21_tracks_partition_the_voxels c vs : same_size vs -> NoDup vs ->
  let tracks := make_track_graphs c vs in
  Permutation (concat tracks) vs /\ (forall t, In t tracks -> t <> []) /\
  forall u v, In u vs -> In v vs -> ((exists t, In t tracks /\ In u t /\ In v t) <-> connected c vs u v).
Proof. intros S N. exact (make_tracks_partition c vs S N). Qed.
Print Assumptions C21_tracks_partition_the_voxels.

(** the voxels of voxelize_hits meet the hypotheses *)
Corollary C21_after_voxelize_hits hits dims strict c : hits <> [] -> positive_dims dims ->
  exists vs, voxelize_hits hits dims strict = Ok vs /\
  let tracks := make_track_graphs c vs in
  Permutation (concat tracks) vs /\ (forall t, In t tracks -> t <> []) /\
  (forall u v, In u vs -> In v vs -> ((exists t, In t tracks /\ In u t /\ In v t) <-> connected c vs u v)) /\
  sumF voxels_energy tracks == hits_energy hits.
Proof.
  intros Hne Hd. destruct (C20_voxels_hold_the_hits hits dims strict Hne Hd) as (vs & E & T & _ & N & S & _). exists vs. split; [assumption|].
  destruct (C21_tracks_partition_the_voxels c vs S) as (P & H1 & H2); [eapply NoDup_map_inv; exact N|]. cbv zeta. split; [assumption|]. split; [assumption|]. split; [assumption|].
  rewrite <- T. unfold voxels_energy. rewrite <- (sumF_perm vE _ _ P). rewrite sumF_concat. reflexivity.
Qed.
Print Assumptions C21_after_voxelize_hits.

Definition cube (i : nat) (x e : Q) (hs : list phit) : voxel := {| vid := i; vx := x; vy := 0; vz := 0; vE := e; szx := 1; szy := 1; szz := 1; vhits := hs |}.
Example C21_two_tracks : let vs := [cube 0 0 1 []; cube 1 5 1 []; cube 2 1 2 []] in
  same_size vs /\ NoDup vs /\ map (map vid) (make_track_graphs FACE vs) = [[1]; [0; 2]]%nat.
Proof.
  cbv zeta. split; [|split; [repeat constructor; cbn; intuition discriminate|reflexivity]].
  intros u v [<-|[<-|[<-|[]]]] [<-|[<-|[<-|[]]]]; repeat split; reflexivity.
Qed.

(** ** C22 *)
Theorem C22_extremes_are_farthest {V} (keys : list V) (dist : V -> V -> Q) :
  (2 <= length keys)%nat -> NoDup keys ->
  (forall u v, In u keys -> In v keys -> dist u v == dist v u) ->
  (forall u, In u keys -> dist u u == 0) ->
  (forall u v, In u keys -> In v keys -> u <> v -> 0 < dist u v) ->
  exists a b, find_extrema_and_length keys dist = Ok (Some (a, b), dist a b) /\ In a keys /\ In b keys /\ a <> b /\
    forall u v, In u keys -> In v keys -> dist u v <= dist a b.
Proof.
  intros L N Sym Refl Pos. destruct keys as [|k1 [|k2 ks]] eqn:Ek; [cbn in L; lia|cbn in L; lia|]. rewrite <- Ek in *.
  assert (E0 : find_extrema_and_length keys dist = Ok (fold_left (fun best p => if Qltb (snd best) (dist (fst p) (snd p)) then (Some p, dist (fst p) (snd p)) else best) (combinations2 keys) (None, 0))) by (rewrite Ek; reflexivity).
  rewrite E0. destruct (fold_best dist (combinations2 keys) (None, 0)) as (H1 & H2 & H3). cbv zeta in *.
  set (r := fold_left _ _ _) in *.
  assert (I12 : In (k1, k2) (combinations2 keys)) by (rewrite Ek; cbn; now left).
  assert (Pd : 0 < dist k1 k2). { rewrite Ek in Pos, N. apply Pos; [now left|right; now left|]. intros ->. inversion N as [|? ? N1 _]. apply N1. now left. }
  pose proof (H2 _ I12) as H12. cbn [fst snd] in H12. destruct H3 as [C|([a b] & Hp & Ep & Es & _)]; [rewrite C in H12; cbn [snd] in H12; lra|].
  cbn [fst snd] in Es. exists a, b. split; [destruct r as [r1 r2]; cbn [fst snd] in *; congruence|].
  apply combinations2_in in Hp. destruct Hp as (i & j & Hij & Hi & Hj).
  pose proof (nth_error_In _ _ Hi) as Ia. pose proof (nth_error_In _ _ Hj) as Ib. split; [assumption|]. split; [assumption|]. split.
  { intros ->. rewrite NoDup_nth_error in N. assert (i = j); [|lia]. apply N; [apply nth_error_Some; congruence|congruence]. }
  intros u v Hu Hv. rewrite <- Es.
  apply In_nth_error in Hu, Hv. destruct Hu as [m Hm], Hv as [n Hn]. destruct (Nat.lt_trichotomy m n) as [C|[C|C]].
  - apply (H2 (u, v)). apply combinations2_in. eauto.
  - subst n. rewrite Hm in Hn. injection Hn as <-. rewrite Refl by (eapply nth_error_In; exact Hm). lra.
  - rewrite Sym by (eapply nth_error_In; eassumption). apply (H2 (v, u)). apply combinations2_in. eauto.
Qed.
Print Assumptions C22_extremes_are_farthest.

Theorem C22_single_voxel {V} (v : V) dist : find_extrema_and_length [v] dist = Ok (Some (v, v), 0).
Proof. reflexivity. Qed.
Theorem C22_no_voxels {V} (dist : V -> V -> Q) : find_extrema_and_length [] dist = Err NoVoxels.
Proof. reflexivity. Qed.

(** the distances of different voxels must be positive: otherwise there are no extremes *)
Theorem C22_zero_distances_refuted : exists (keys : list nat) dist, (length keys = 2)%nat /\ NoDup keys /\ find_extrema_and_length keys dist = Ok (None, 0).
Proof. exists [0; 1]%nat, (fun _ _ => 0). split; [reflexivity|]. split; [repeat constructor; cbn; intuition discriminate|reflexivity]. Qed.

Definition line_dist (a b : nat) : Q := if (a <=? b)%nat then qnat (b - a) else qnat (a - b).
Example C22_line : (forall u v, line_dist u v == line_dist v u) /\ (forall u, line_dist u u == 0) /\ (forall u v, u <> v -> 0 < line_dist u v) /\
  find_extrema_and_length [3; 7; 1; 4]%nat line_dist = Ok (Some (7, 1)%nat, 6).
Proof.
  split; [|split; [|split; [|reflexivity]]].
  - intros u v. unfold line_dist. destruct (Nat.leb_spec u v), (Nat.leb_spec v u); try reflexivity; [|lia]. replace (v - u)%nat with (u - v)%nat by lia. reflexivity.
  - intros u. unfold line_dist. rewrite Nat.leb_refl, Nat.sub_diag. reflexivity.
  - intros u v H. unfold line_dist. destruct (Nat.leb_spec u v); apply qnat_pos; lia.
Qed.

(** ** C23 *)
(** the voxels at an end of a long enough track keep their place only if they have enough energy or nowhere
    to give it *)
Definition stays (thr : Q) (cont : contiguity) (vs : list voxel) (id : nat) : Prop :=
  forall v, In v vs -> vid v = id -> thr <= vE v \/ (forall u, In u vs -> u <> v -> ~ adjacent cont v u).

Theorem C23_drop_end_point_voxels paths thr min_vxls cont vs fuel :
  paths_ok paths -> vs <> [] -> NoDup (map vid vs) -> same_size vs ->
  ((forall v, In v vs -> filled v) \/ (forall v, In v vs -> bare v)) -> (length vs < fuel)%nat ->
  exists out dropped, drop_end_point_voxels paths thr min_vxls cont fuel vs = Some (Ok (out, dropped)) /\
    (* the voxels left and the dropped ones are the input voxels *)
    Permutation (map vid (out ++ dropped)) (map vid vs) /\
    (forall v', In v' (out ++ dropped) -> exists v, In v vs /\ same_place v v') /\
    (* the energy is conserved, and stays positive everywhere *)
    voxels_energy out == voxels_energy vs /\
    (forall v, In v out -> filled v \/ bare v) /\
    (forall v, In v dropped -> vE v < thr) /\
    (* nothing more can be dropped *)
    (forall t, In t (make_track_graphs cont out) -> (min_vxls <= length t)%nat ->
       exists u v, extrema paths t = Ok (Some (vid u, vid v)) /\ In u t /\ In v t /\ stays thr cont out (vid u) /\ stays thr cont out (vid v)).
Proof.
  intros Hp Hne N S Hg Hf.
  assert (exists b, forall v, In v vs -> good b v) as [b Hb] by (destruct Hg as [H|H]; [exists true|exists false]; exact H).
  assert (I : inv thr b vs {| dmod := vs; ddropped := []; dmodified := false |}).
  { constructor; cbn [dmod ddropped]; [|easy|constructor|assumption|reflexivity].
    assert (E : filter (alive []) vs = vs) by (clear; induction vs as [|v l IH]; cbn; [reflexivity|now rewrite IH]). rewrite E.
    clear. induction vs as [|v l IH]; [apply Forall2_nil|apply Forall2_cons; [apply same_place_refl|exact IH]]. }
  destruct (drop_loop_spec paths thr min_vxls cont Hp b vs N S fuel vs [] I Hf) as (out & outd & E & [A D ND G T] & Q1). cbn [dmod ddropped] in *.
  exists out, outd. split; [destruct vs; [easy|exact E]|]. split; [|split; [|split; [|split; [|split]]]].
  - rewrite map_app, (F2_vid _ _ A).
    assert (Dv : forall d, In d outd -> In (vid d) (map vid vs)).
    { intros d Hd. destruct (D d Hd) as ((v & Hv & (E' & _)) & _). rewrite E'. now apply in_map. }
    apply NoDup_Permutation.
    + apply NoDup_app_disjoint; [apply NoDup_map_filter; assumption|assumption|]. intros x Hx Hd.
      apply in_map_iff in Hx, Hd. destruct Hx as (v & Ev & Hv), Hd as (d & Ed & Hd). apply filter_In in Hv. destruct Hv as [_ Av].
      unfold alive in Av. apply negb_true_iff in Av. assert (X : existsb (fun d => vid d =? vid v)%nat outd = true); [|congruence].
      apply existsb_exists. exists d. split; [assumption|]. apply Nat.eqb_eq. congruence.
    + assumption.
    + intros x. rewrite in_app_iff. split.
      * intros [Hx|Hx]; apply in_map_iff in Hx; destruct Hx as (v & <- & Hv); [apply in_map; apply filter_In in Hv; apply Hv|auto].
      * intros Hx. apply in_map_iff in Hx. destruct Hx as (v & <- & Hv). destruct (alive outd v) eqn:Ea; [left; apply in_map, filter_In; auto|right].
        unfold alive in Ea. apply negb_false_iff, existsb_exists in Ea. destruct Ea as (d & Hd & Ed). apply Nat.eqb_eq in Ed. rewrite <- Ed. now apply in_map.
  - intros v' Hv'. apply in_app_iff in Hv'. destruct Hv' as [Hv'|Hv'].
    + destruct (F2_in _ _ _ A Hv') as (x & Hx & Ex). apply filter_In in Hx. exists x. tauto.
    + now apply D.
  - exact T.
  - intros v Hv. specialize (G v Hv). destruct b; [now left|now right].
  - intros v Hv. now apply D.
  - exact Q1.
Qed.
Print Assumptions C23_drop_end_point_voxels.

Theorem C23_no_voxels paths thr min_vxls cont fuel : drop_end_point_voxels paths thr min_vxls cont fuel [] = Some (Err IndexError).
Proof. reflexivity. Qed.

(** starting from hits with positive energies *)
Corollary C23_after_voxelize_hits paths thr min_vxls cont hits dims strict : paths_ok paths -> hits <> [] -> positive_dims dims ->
  (forall h, In h hits -> 0 < pe h) ->
  exists vs, voxelize_hits hits dims strict = Ok vs /\ vs <> [] /\
  forall fuel, (length vs < fuel)%nat -> exists out dropped,
    drop_end_point_voxels paths thr min_vxls cont fuel vs = Some (Ok (out, dropped)) /\
    Permutation (map vid (out ++ dropped)) (map vid vs) /\ voxels_energy out == hits_energy hits.
Proof.
  intros Hp Hne Hd Hpos. destruct (C20_voxels_hold_the_hits hits dims strict Hne Hd) as (vs & E & T & _ & N & S & _ & F). exists vs. split; [assumption|].
  destruct (F Hpos) as [P Fl].
  assert (Hv : vs <> []) by (intros ->; cbn in P; apply Permutation_nil in P; congruence).
  split; [assumption|]. intros fuel Hf. destruct (C23_drop_end_point_voxels paths thr min_vxls cont vs fuel Hp Hv N S (or_introl Fl) Hf) as (out & dr & E' & P' & _ & T' & _).
  exists out, dr. split; [assumption|]. split; [assumption|]. now rewrite T'.
Qed.
Print Assumptions C23_after_voxelize_hits.

(** different voxels at distance 1, enough to meet the hypotheses *)
Definition unit_paths (t : list voxel) : list voxel * (voxel -> voxel -> Q) :=
  (t, fun u v => if (vid u =? vid v)%nat then 0 else 1).
Lemma unit_paths_ok : paths_ok unit_paths.
Proof.
  intros t N. split; [reflexivity|]. intros u v Hu Hv Huv. cbn [unit_paths snd]. destruct (Nat.eqb_spec (vid u) (vid v)) as [C|C]; [|reflexivity].
  exfalso. apply Huv. exact (voxel_eq_dec u v t N Hu Hv C).
Qed.
(** the voxel with energy 1 at one end of the track is dropped and its neighbour takes its energy *)
Definition short_track : list voxel := [cube 0 0 1 [hit_at 0 0 0 1]; cube 1 1 11 [hit_at 1 0 0 5; hit_at 1 0 1 6]].
Example C23_one_voxel_dropped : NoDup (map vid short_track) /\ same_size short_track /\ (forall v, In v short_track -> filled v) /\
  exists out dropped, drop_end_point_voxels unit_paths 2 1 FACE 5 short_track = Some (Ok (out, dropped)) /\
  (length out = 1)%nat /\ map vid dropped = [0%nat] /\ (forall v, In v out -> vE v == 12 /\ vE v == hits_energy (vhits v)).
Proof.
  split; [repeat constructor; cbn; intuition discriminate|]. split.
  { intros u v [<-|[<-|[]]] [<-|[<-|[]]]; repeat split; reflexivity. }
  split.
  { intros v [<-|[<-|[]]]; (split; [discriminate|]); (split; [|reflexivity]); intros h Hh; cbn in Hh; intuition (subst; reflexivity). }
  do 2 eexists. split; [vm_compute; reflexivity|]. split; [reflexivity|]. split; [reflexivity|].
  intros v [<-|[]]. split; reflexivity.
Qed.

(** a voxel with hits next to one without hits: the call fails *)
Theorem C23_mixed_voxels_refuted :
  let vs := [cube 0 0 1 [hit_at 0 0 0 1]; cube 1 1 5 []] in
  (forall v, In v vs -> filled v \/ bare v) /\ drop_end_point_voxels unit_paths 2 1 FACE 5 vs = Some (Err ValueError).
Proof.
  cbv zeta. split; [|reflexivity]. intros v [<-|[<-|[]]]; [left|right].
  - split; [discriminate|]. split; [intros h [<-|[]]; reflexivity|reflexivity].
  - split; reflexivity.
Qed.

(** ** C24 *)
Section BlobProofs.
  Variables (nodes : list voxel) (dist : nat -> nat -> Q) (diag : Q).

  Lemma norm_lt_iff r c h : norm_lt (d3 (hpos h) c) r = true <-> closer_than r c h.
  Proof. destruct c as [[x y] z]. unfold norm_lt, closer_than, hpos, d3, sq. cbn [fst snd]. rewrite andb_true_iff, !Qltb_lt. reflexivity. Qed.

  Lemma within_sum v r e : NoDup nodes ->
    (exists l, NoDup l /\ (forall u, In u l <-> In u nodes /\ dist (vid v) (vid u) < r) /\ e == voxels_energy l) <-> e == energy_within nodes dist v r.
  Proof.
    intros N. unfold energy_within. split.
    - intros (l & Nl & Hl & ->). unfold voxels_energy. apply sumF_perm, NoDup_Permutation; [assumption|now apply NoDup_filter|].
      intros u. rewrite Hl, filter_In, Qltb_lt. reflexivity.
    - intros H. eexists. split; [apply NoDup_filter, N|]. split; [|exact H]. intros u. rewrite filter_In, Qltb_lt. reflexivity.
  Qed.

  Lemma best_spec (f : voxel -> Q) l : forall n, let r := fold_left (fun best n => if Qltb (f best) (f n) then n else best) l n in
    In r (n :: l) /\ forall u, In u (n :: l) -> f u <= f r.
  Proof.
    induction l as [|x l IH]; intros n; cbn [fold_left]; cbv zeta.
    - split; [now left|]. intros u [<-|[]]. lra.
    - destruct (IH (if Qltb (f n) (f x) then x else n)) as [H1 H2]. cbv zeta in *. set (r := fold_left _ l _) in *.
      destruct (Qltb_spec (f n) (f x)) as [C|C]; (split; [destruct H1 as [H1|H1]; [rewrite H1|]; cbn; auto|]).
      + intros u [<-|[<-|Hu]]; [pose proof (H2 x (or_introl eq_refl)); lra|apply H2; now left|apply H2; now right].
      + intros u [<-|[<-|Hu]]; [apply H2; now left|pose proof (H2 n (or_introl eq_refl)); lra|apply H2; now right].
  Qed.

  Lemma blob_at_spec small big ext v : NoDup nodes -> blob_at nodes dist small big ext = Ok v -> blob_voxel nodes dist small big ext v.
  Proof.
    intros N. unfold blob_at, blob_voxel, find_highest_encapsulating_node. destruct big as [r|]; [|congruence].
    destruct (filter _ nodes) as [|n l] eqn:Ef; [discriminate|]. intros E.
    assert (Ev : v = fold_left (fun best n => if Qltb (energy_within nodes dist best small) (energy_within nodes dist n small) then n else best) l n) by congruence. clear E.
    destruct (best_spec (fun x => energy_within nodes dist x small) l n) as [H1 H2]. cbv zeta in *. rewrite <- Ev, <- Ef in *.
    apply filter_In in H1. destruct H1 as [H1 H1']. apply Qleb_le in H1'. split; [assumption|]. split; [assumption|].
    intros u eu ev Hu Hd Eu Ev'. apply within_sum in Eu; [|assumption]. apply within_sum in Ev'; [|assumption]. rewrite Eu, Ev'. apply H2.
    apply filter_In. split; [assumption|now apply Qleb_le].
  Qed.

  Lemma blob_at_ok small big ext : In ext nodes -> dist (vid ext) (vid ext) == 0 -> (forall r, big = Some r -> 0 <= r) ->
    exists v, blob_at nodes dist small big ext = Ok v /\ In v nodes.
  Proof.
    intros He H0 Hb. unfold blob_at, find_highest_encapsulating_node. destruct big as [r|]; [|eauto].
    assert (I : In ext (filter (fun n => Qle_bool (dist (vid ext) (vid n)) r) nodes)).
    { apply filter_In. split; [assumption|]. apply Qleb_le. specialize (Hb r eq_refl). lra. }
    destruct (filter _ nodes) as [|n l] eqn:Ef; [easy|]. eexists. split; [reflexivity|].
    destruct (best_spec (fun x => energy_within nodes dist x small) l n) as [H1 _]. cbv zeta in H1. rewrite <- Ef in H1. apply filter_In in H1. apply H1.
  Qed.

  Lemma hits_in_blob_spec r ext hs : hits_in_blob nodes dist diag r ext = Ok hs ->
    hs = flat_map (fun v => filter (fun h => norm_lt (d3 (hpos h) (blob_centre ext)) r) (vhits v)) (filter (fun v => Qltb (dist (vid ext) (vid v)) (r + diag)) nodes).
  Proof. unfold hits_in_blob. destruct (filter _ nodes) as [|n l] eqn:Ef; [discriminate|]. congruence. Qed.

  Lemma hits_in_blob_in r ext hs : hits_in_blob nodes dist diag r ext = Ok hs ->
    forall h, In h hs <-> exists v, In v nodes /\ In h (vhits v) /\ dist (vid ext) (vid v) < r + diag /\ closer_than r (blob_centre ext) h.
  Proof.
    intros E h. rewrite (hits_in_blob_spec _ _ _ E), in_flat_map. split.
    - intros (v & Hv & Hh). apply filter_In in Hv, Hh. destruct Hv as [Hv Dv], Hh as [Hh Ch]. exists v. rewrite Qltb_lt in Dv. rewrite norm_lt_iff in Ch. auto.
    - intros (v & Hv & Hh & Dv & Ch). exists v. rewrite !filter_In, Qltb_lt, norm_lt_iff. auto.
  Qed.
  Lemma NoDup_flat_sub (f g : voxel -> list phit) (p : voxel -> bool) l :
    (forall v h, In h (g v) -> In h (f v)) -> (forall v, NoDup (f v) -> NoDup (g v)) -> NoDup (flat_map f l) -> NoDup (flat_map g (filter p l)).
  Proof.
    intros H1 H2. induction l as [|v l IH]; cbn [flat_map filter]; intros N; [constructor|].
    assert (A : NoDup (f v) /\ NoDup (flat_map f l) /\ forall h, In h (f v) -> ~ In h (flat_map f l)).
    { revert N. generalize (flat_map f l). induction (f v) as [|x r IHr]; intros m N; [split; [constructor|split; [assumption|easy]]|].
      cbn in N. inversion N as [|? ? N1 N2]; subst. destruct (IHr _ N2) as (R1 & R2 & R3). rewrite in_app_iff in N1.
      split; [constructor; tauto|]. split; [assumption|]. intros h [<-|Hh]; [tauto|auto]. }
    destruct A as (A1 & A2 & A3). destruct (p v); [|auto]. cbn [flat_map]. apply NoDup_app_disjoint; [auto|auto|].
    intros h Hh Hl. apply (A3 h (H1 _ _ Hh)). apply in_flat_map in Hl. destruct Hl as (w & Hw & Hh'). apply filter_In in Hw. apply in_flat_map. exists w. split; [apply Hw|auto].
  Qed.
  Lemma hits_in_blob_nodup r ext hs : hits_in_blob nodes dist diag r ext = Ok hs -> NoDup (flat_map vhits nodes) -> NoDup hs.
  Proof.
    intros E. rewrite (hits_in_blob_spec _ _ _ E). apply NoDup_flat_sub; [intros v h Hh; apply filter_In in Hh; apply Hh|]. intros v. apply NoDup_filter.
  Qed.
  Lemma hits_in_blob_ok r ext : In ext nodes -> dist (vid ext) (vid ext) == 0 -> 0 < r + diag -> exists hs, hits_in_blob nodes dist diag r ext = Ok hs.
  Proof.
    intros He H0 Hr. unfold hits_in_blob. assert (I : In ext (filter (fun v => Qltb (dist (vid ext) (vid v)) (r + diag)) nodes)).
    { apply filter_In. split; [assumption|]. apply Qltb_lt. lra. }
    destruct (filter _ nodes); [easy|eauto].
  Qed.
End BlobProofs.

(** one blob around the voxel [v]: exactly the hits close to its centre, in voxels close along the track, each once *)
Definition blob_of (nodes : list voxel) (dist : nat -> nat -> Q) (diag r : Q) (v : voxel) (B : blob) : Prop :=
  bcentre B = blob_centre v /\
  (forall h, In h (bhits B) <-> exists u, In u nodes /\ In h (vhits u) /\ dist (vid v) (vid u) < r + diag /\ closer_than r (bcentre B) h) /\
  (NoDup (flat_map vhits nodes) -> NoDup (bhits B)).

Theorem C24_blobs nodes dist diag small big a b :
  NoDup nodes -> In a nodes -> In b nodes -> (forall v, In v nodes -> dist (vid v) (vid v) == 0) ->
  0 < small + diag -> (forall r, big = Some r -> 0 <= r) ->
  exists b1 b2, blob_energies_hits_and_centres nodes dist diag small big a b = Ok (b1, b2) /\
    (* the first one has at least the energy of the second one *)
    bE b2 <= bE b1 /\
    (* each one is around one of the ends *)
    (exists va vb, blob_voxel nodes dist small big a va /\ blob_voxel nodes dist small big b vb /\
       ((blob_of nodes dist diag small va b1 /\ blob_of nodes dist diag small vb b2) \/
        (blob_of nodes dist diag small vb b1 /\ blob_of nodes dist diag small va b2))) /\
    (* the energy is that of the hits *)
    (bhits b1 <> [] \/ bhits b2 <> [] -> bE b1 == hits_energy (bhits b1) /\ bE b2 == hits_energy (bhits b2)).
Proof.
  intros N Ha Hb D0 Hr Hbig. unfold blob_energies_hits_and_centres.
  destruct (blob_at_ok nodes dist small big a Ha (D0 a Ha) Hbig) as (va & Ea & Iva). destruct (blob_at_ok nodes dist small big b Hb (D0 b Hb) Hbig) as (vb & Eb & Ivb).
  pose proof (blob_at_spec nodes dist small big a va N Ea) as Sa. pose proof (blob_at_spec nodes dist small big b vb N Eb) as Sb.
  destruct (hits_in_blob_ok nodes dist diag small va Iva (D0 va Iva) Hr) as (ha & Eha). destruct (hits_in_blob_ok nodes dist diag small vb Ivb (D0 vb Ivb) Hr) as (hb & Ehb).
  rewrite Ea, Eb. cbn [rbind]. rewrite Eha, Ehb. cbn [rbind].
  set (some := (0 <? length ha)%nat || (0 <? length hb)%nat).
  set (EA := if some then sumF pe ha else energy_within nodes dist va small). set (EB := if some then sumF pe hb else energy_within nodes dist vb small).
  assert (Ba : blob_of nodes dist diag small va {| bE := EA; bhits := ha; bcentre := blob_centre va |}).
  { split; [reflexivity|]. split; [exact (hits_in_blob_in nodes dist diag small va ha Eha)|exact (hits_in_blob_nodup nodes dist diag small va ha Eha)]. }
  assert (Bb : blob_of nodes dist diag small vb {| bE := EB; bhits := hb; bcentre := blob_centre vb |}).
  { split; [reflexivity|]. split; [exact (hits_in_blob_in nodes dist diag small vb hb Ehb)|exact (hits_in_blob_nodup nodes dist diag small vb hb Ehb)]. }
  assert (HEn : ha <> [] \/ hb <> [] -> EA == hits_energy ha /\ EB == hits_energy hb).
  { intros H. assert (some = true) as Es; [|unfold EA, EB; rewrite Es; split; reflexivity].
    unfold some. apply orb_true_iff. destruct H as [H|H]; [left; destruct ha; [easy|reflexivity]|right; destruct hb; [easy|reflexivity]]. }
  destruct (Qltb_spec EA EB) as [C|C]; do 2 eexists; (split; [reflexivity|]); cbn [bE bhits]; (split; [lra|]); (split; [exists va, vb; tauto|]); tauto.
Qed.
Print Assumptions C24_blobs.

(** tracks without hits: the energy is that of the voxels closer than the radius *)
Theorem C24_blobs_of_voxels_without_hits nodes dist diag small big a b b1 b2 :
  NoDup nodes -> (forall v, In v nodes -> vhits v = []) ->
  blob_energies_hits_and_centres nodes dist diag small big a b = Ok (b1, b2) ->
  bE b2 <= bE b1 /\ bhits b1 = [] /\ bhits b2 = [] /\
  let around x e := exists l, NoDup l /\ (forall u, In u l <-> In u nodes /\ dist (vid x) (vid u) < small) /\ e == voxels_energy l in
  exists va vb, blob_voxel nodes dist small big a va /\ blob_voxel nodes dist small big b vb /\
    ((around va (bE b1) /\ around vb (bE b2)) \/ (around vb (bE b1) /\ around va (bE b2))).
Proof.
  intros N H0. unfold blob_energies_hits_and_centres.
  destruct (blob_at nodes dist small big a) as [va|] eqn:Ea; [|discriminate]. destruct (blob_at nodes dist small big b) as [vb|] eqn:Eb; [|discriminate]. cbn [rbind].
  destruct (hits_in_blob nodes dist diag small va) as [ha|] eqn:Eha; [|discriminate]. destruct (hits_in_blob nodes dist diag small vb) as [hb|] eqn:Ehb; [|discriminate]. cbn [rbind].
  assert (Hn : forall r v hs, hits_in_blob nodes dist diag r v = Ok hs -> hs = []).
  { intros r v hs E. destruct hs as [|h l]; [reflexivity|]. exfalso. destruct (proj1 (hits_in_blob_in nodes dist diag r v _ E h) (or_introl eq_refl)) as (u & Hu & Hh & _). rewrite (H0 u Hu) in Hh. destruct Hh. }
  apply Hn in Eha, Ehb. subst ha hb. cbn [length Nat.ltb Nat.leb orb].
  apply blob_at_spec in Ea, Eb; [|assumption..].
  assert (Wa := proj2 (within_sum nodes dist va small _ N) (Qeq_refl _)). assert (Wb := proj2 (within_sum nodes dist vb small _ N) (Qeq_refl _)).
  destruct (Qltb_spec (energy_within nodes dist va small) (energy_within nodes dist vb small)) as [C|C]; intros E; injection E as <- <-; cbn [bE bhits];
    (split; [lra|]); (split; [reflexivity|]); (split; [reflexivity|]); exists va, vb; (split; [assumption|]); (split; [assumption|]); [right|left]; auto.
Qed.
Print Assumptions C24_blobs_of_voxels_without_hits.

(** the centre of a blob is inside the voxel of its hits *)
Lemma wmean_between f l lo hi : l <> [] -> (forall h, In h l -> 0 < pe h) -> (forall h, In h l -> lo <= f h < hi) -> lo <= wmean f l < hi.
Proof.
  intros Hne Hp Hf. unfold wmean. assert (T : 0 < sumF pe l) by (destruct l as [|h l']; [easy|]; apply sumF_pos with h; [assumption|now left]).
  assert (E1 : lo * sumF pe l <= sumF (fun h => pe h * f h) l).
  { rewrite <- sumF_scale. apply sumF_le. intros h Hh. specialize (Hp h Hh). destruct (Hf h Hh). nra. }
  assert (E2 : sumF (fun h => pe h * f h) l < hi * sumF pe l).
  { rewrite <- sumF_scale. assert (P : 0 < sumF (fun h => hi * pe h - pe h * f h) l).
    { destruct l as [|h l']; [easy|]. apply sumF_pos with h; [|now left]. intros x Hx. specialize (Hp x Hx). destruct (Hf x Hx). nra. }
    assert (E : sumF (fun h => hi * pe h) l == sumF (fun h => hi * pe h - pe h * f h) l + sumF (fun h => pe h * f h) l).
    { rewrite <- sumF_plus. apply sumF_ext. intros; ring. }
    lra. }
  split; [apply Qle_shift_div_l; assumption|apply Qlt_shift_div_r; assumption].
Qed.

Theorem C24_centre_inside_its_voxel v : filled v -> (forall h, In h (vhits v) -> inside v h) ->
  let '(x, y, z) := blob_centre v in inside v {| px := x; py := y; pz := z; pe := 0; pother := 0 |}.
Proof.
  intros (Hne & Hp & _) Hi. unfold blob_centre. assert (T : 0 < sumF pe (vhits v)) by (destruct (vhits v) as [|h l']; [easy|]; apply sumF_pos with h; [assumption|now left]).
  destruct (Qeqb_spec (sumF pe (vhits v)) 0) as [C|_]; [lra|]. unfold inside. cbn [px py pz].
  split; [|split]; (apply wmean_between; [assumption..|]); intros h Hh; apply (Hi h Hh).
Qed.
Print Assumptions C24_centre_inside_its_voxel.

(** the order of the two ends does not matter for the energies *)
Theorem C24_order_of_the_ends nodes dist diag small big a b b1 b2 :
  blob_energies_hits_and_centres nodes dist diag small big a b = Ok (b1, b2) ->
  exists b1' b2', blob_energies_hits_and_centres nodes dist diag small big b a = Ok (b1', b2') /\
    bE b1' == bE b1 /\ bE b2' == bE b2 /\ (~ bE b1 == bE b2 -> b1' = b1 /\ b2' = b2).
Proof.
  unfold blob_energies_hits_and_centres.
  destruct (blob_at nodes dist small big a) as [va|]; [|discriminate]. destruct (blob_at nodes dist small big b) as [vb|]; [|discriminate]. cbn [rbind].
  destruct (hits_in_blob nodes dist diag small va) as [ha|]; [|discriminate]. destruct (hits_in_blob nodes dist diag small vb) as [hb|]; [|discriminate]. cbn [rbind].
  rewrite (orb_comm (0 <? length hb)%nat). set (some := (0 <? length ha)%nat || (0 <? length hb)%nat).
  set (EA := if some then sumF pe ha else energy_within nodes dist va small). set (EB := if some then sumF pe hb else energy_within nodes dist vb small).
  destruct (Qltb_spec EA EB) as [C|C], (Qltb_spec EB EA) as [C'|C']; intros E; injection E as <- <-; try lra;
    do 2 eexists; (split; [reflexivity|]); cbn [bE]; (split; [lra|]); (split; [lra|]); intros H; auto; lra.
Qed.
Print Assumptions C24_order_of_the_ends.

Example C24_two_voxels :
  let a := cube 0 0 4 [hit_at 0 0 0 4] in let b := cube 1 1 5 [hit_at 1 0 0 2; hit_at 1 (1 # 4) 0 3] in let nodes := [a; b] in
  NoDup nodes /\ (forall v, In v nodes -> line_dist (vid v) (vid v) == 0) /\
  exists b1 b2, blob_energies_hits_and_centres nodes line_dist (17 # 10) (1 # 2) None a b = Ok (b1, b2) /\ bE b1 == 5 /\ bE b2 == 4 /\ bhits b1 = vhits b.
Proof.
  cbv zeta. split; [repeat constructor; cbn; intuition discriminate|]. split; [intros v [<-|[<-|[]]]; reflexivity|].
  do 2 eexists. split; [vm_compute; reflexivity|]. split; [reflexivity|]. split; reflexivity.
Qed.
Print Assumptions C20_no_hits.
Print Assumptions C20_cancelling_energies_refuted.
Print Assumptions C22_single_voxel.
Print Assumptions C22_no_voxels.
Print Assumptions C22_zero_distances_refuted.
Print Assumptions C23_no_voxels.
Print Assumptions C23_mixed_voxels_refuted.
