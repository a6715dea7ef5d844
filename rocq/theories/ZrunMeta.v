(** C116: the metadata of the map *)
From Verif Require Import FiltersSpec.
From Verif Require Import Base Arrays PeaksModel PeaksProofs BuffersProofs WfmModel WfmProps XyProps PmapioProofs KrProps DbModel DbProps CorrModel CorrSpec CorrProps CorrMore KmapModel KmapSpec KmapProps KmapGrid ZemModel ZemProps TevModel TevSpec TevProps ZrunModel ZrunSpec ZrunProofs ZrunProps.
Local Open Scope Q_scope.

Lemma sorted_same_elements {A} (R : A -> A -> Prop) : (forall a b, R a b -> ~ R b a) -> forall l m, StronglySorted R l -> StronglySorted R m -> (forall x, In x l <-> In x m) -> l = m.
Proof.
  intros As. induction l as [|a l IH]; intros m Sl Sm E.
  - destruct m as [|b m]; [reflexivity|]. exfalso. apply (proj2 (E b)). now left.
  - destruct m as [|b m]; [exfalso; apply (proj1 (E a)); now left|]. inversion Sl as [|? ? Sl' Fl]; inversion Sm as [|? ? Sm' Fm]; subst. rewrite Forall_forall in Fl, Fm.
    assert (Eab : a = b). { destruct (proj1 (E a) (or_introl eq_refl)) as [|Ia]; [now symmetry|]. destruct (proj2 (E b) (or_introl eq_refl)) as [|Ib]; [assumption|]. exfalso. exact (As _ _ (Fl b Ib) (Fm a Ia)). }
    subst b. f_equal. apply IH; [assumption|assumption|]. intros x. split; intros Hx.
    + destruct (proj1 (E x) (or_intror Hx)) as [->|]; [|assumption]. exfalso. exact (As _ _ (Fl x Hx) (Fl x Hx)).
    + destruct (proj2 (E x) (or_intror Hx)) as [->|]; [|assumption]. exfalso. exact (As _ _ (Fm x Hx) (Fm x Hx)).
Qed.
Lemma in_unique l x : In x (unique l) <-> In x l.
Proof.
  induction l as [|a l IH]; [reflexivity|]. cbn [unique In]. rewrite filter_In, IH. split.
  - intros [->|[H _]]; auto.
  - intros [->|H]; [now left|]. destruct (Nat.eqb_spec x a) as [->|N]; [now left|]. right. split; [exact H|reflexivity].
Qed.
Lemma unique_app l m : unique (l ++ m) = unique l ++ filter (fun y => negb (existsb (Nat.eqb y) l)) (unique m).
Proof.
  induction l as [|a l IH]; cbn [app unique existsb].
  - symmetry. apply filter_all_in. now intros.
  - rewrite IH, filter_app. cbn [app]. f_equal. f_equal. rewrite filter_filter'. apply filter_ext. intros y. now rewrite negb_orb, andb_comm.
Qed.
Lemma filter_none_in {A} (p : A -> bool) l : (forall a, In a l -> p a = false) -> filter p l = [].
Proof. induction l as [|a l IH]; intros F; [reflexivity|]. cbn. rewrite (F a (or_introl eq_refl)). apply IH. intros z Hz. apply F. now right. Qed.
Lemma unique_first l m : incl m l -> unique (l ++ m) = unique l.
Proof.
  intros I. rewrite unique_app, (filter_none_in _ (unique m)); [apply app_nil_r|]. intros y Hy. apply (proj1 (in_unique _ _)) in Hy. apply negb_false_iff, existsb_exists. exists y. split; [now apply I|apply Nat.eqb_refl].
Qed.
Lemma filter_sorted {A} (R : A -> A -> Prop) p l : StronglySorted R l -> StronglySorted R (filter p l).
Proof. induction 1 as [|a l S IH F]; [constructor|]. cbn. destruct (p a); [|exact IH]. constructor; [exact IH|]. rewrite Forall_forall in *. intros x Hx. apply filter_In in Hx. now apply F. Qed.
Lemma unique_sorted l : StronglySorted le l -> StronglySorted lt (unique l).
Proof.
  induction 1 as [|a l S IH F]; [constructor|]. cbn [unique]. constructor; [now apply filter_sorted|]. rewrite Forall_forall in *. intros x Hx. apply filter_In in Hx. destruct Hx as [Hx N]. apply (proj1 (in_unique _ _)) in Hx. specialize (F x Hx). apply negb_true_iff, Nat.eqb_neq in N. lia.
Qed.
Lemma unique_is_seq l n : StronglySorted le l -> (forall x, In x l <-> (x < n)%nat) -> unique l = seq 0 n.
Proof. intros S I. apply (sorted_same_elements lt); [intros; lia|now apply unique_sorted|apply seq_lt_sorted|]. intros x. rewrite in_unique, I, in_seq. lia. Qed.
Lemma grid_keys nz n l : covers_grid nz n l -> l = all_keys nz n.
Proof. intros [S I]. destruct (all_keys_grid nz n) as [S' I']. apply (sorted_same_elements before); [apply before_asym|exact S|exact S'|]. intros [[k i] j]. now rewrite I, I'. Qed.
Lemma prod_first {A B} (l : list A) (m : list B) : map fst (list_prod l m) = flat_map (fun a => map (fun _ => a) m) l.
Proof. induction l as [|a l IH]; [reflexivity|]. cbn [list_prod flat_map]. rewrite map_app, IH, map_map. reflexivity. Qed.
Lemma repeated_sorted {B} (m : list B) l : StronglySorted le l -> StronglySorted le (flat_map (fun a => map (fun _ => a) m) l).
Proof.
  induction 1 as [|a l S IH F]; [constructor|]. cbn [flat_map]. set (rest := flat_map _ l) in *. assert (R : forall x, In x rest -> (a <= x)%nat).
  { intros x Hx. apply in_flat_map in Hx. destruct Hx as (y & Hy & Hx). apply in_map_iff in Hx. destruct Hx as (_ & <- & _). rewrite Forall_forall in F. now apply F. }
  clearbody rest. induction m as [|b m IHm]; [exact IH|]. cbn [map app]. constructor; [exact IHm|]. rewrite Forall_forall. intros x Hx. apply in_app_or in Hx. destruct Hx as [Hx|Hx]; [|now apply R].
  apply in_map_iff in Hx. destruct Hx as (_ & <- & _). lia.
Qed.
Lemma seq_le_sorted a n : StronglySorted le (seq a n).
Proof. eapply sorted_impl; [|apply seq_lt_sorted]. intros; lia. Qed.
Lemma k_bins nz n : (0 < n)%nat -> unique (map (fun p : key => fst (fst p)) (all_keys nz n)) = seq 0 nz.
Proof.
  intros Hn. apply unique_is_seq.
  - unfold all_keys. rewrite <- (map_map fst fst), !prod_first. assert (M : forall l : list (nat * nat), map fst (flat_map (fun a => map (fun _ : nat => a) (seq 0 n)) l) = flat_map (fun a => map (fun _ : nat => a) (seq 0 n)) (map fst l)).
    { induction l as [|a l IH]; [reflexivity|]. cbn [flat_map map]. rewrite map_app, map_map, IH. reflexivity. }
    rewrite M, prod_first. apply repeated_sorted, repeated_sorted, seq_le_sorted.
  - intros x. rewrite in_map_iff. split; [intros ([[k i] j] & <- & H); apply in_all_keys in H; cbn; tauto|]. intros Hx. exists (x, 0, 0)%nat. split; [reflexivity|]. apply in_all_keys. lia.
Qed.
Lemma all_keys_block nz n : (0 < nz)%nat -> exists rest, all_keys nz n = list_prod (map (fun i => (0, i)%nat) (seq 0 n)) (seq 0 n) ++ rest.
Proof.
  intros Hz. destruct nz as [|nz]; [lia|]. unfold all_keys. cbn [seq list_prod]. exists (list_prod (list_prod (seq 1 nz) (seq 0 n)) (seq 0 n)).
  assert (A : forall (l m : list (nat * nat)) (k : list nat), list_prod (l ++ m) k = list_prod l k ++ list_prod m k) by (induction l as [|x l IH]; intros m k; [reflexivity|]; cbn [app list_prod]; now rewrite IH, app_assoc). apply A.
Qed.
Lemma i_bins nz n : (0 < nz)%nat -> (0 < n)%nat -> unique (map (fun p : key => snd (fst p)) (all_keys nz n)) = seq 0 n.
Proof.
  intros Hz Hn. assert (I : forall x, In x (map (fun p : key => snd (fst p)) (all_keys nz n)) -> (x < n)%nat) by (intros x Hx; apply in_map_iff in Hx; destruct Hx as ([[k i] j] & <- & H); apply in_all_keys in H; cbn; tauto).
  destruct (all_keys_block nz n Hz) as (rest & E). rewrite E, map_app in *. set (b := map _ (list_prod _ _)) in *. assert (B : b = flat_map (fun a => map (fun _ : nat => a) (seq 0 n)) (seq 0 n)).
  { unfold b. rewrite <- (map_map fst snd), prod_first. generalize (seq 0 n) at 2 4. induction l as [|a l IH]; [reflexivity|]. cbn [map flat_map]. rewrite map_app, map_map, IH. reflexivity. }
  assert (Ib : forall x, In x b <-> (x < n)%nat).
  { intros x. split; [intros Hx; apply I, in_or_app; now left|]. intros Hx. rewrite B. apply in_flat_map. exists x. split; [apply in_seq; lia|]. apply in_map_iff. exists 0%nat. split; [reflexivity|]. apply in_seq. lia. }
  rewrite unique_first; [|intros x Hx; apply Ib, I, in_or_app; now right]. apply unique_is_seq; [|exact Ib]. rewrite B. apply repeated_sorted, seq_le_sorted.
Qed.
Lemma j_bins nz n : (0 < nz)%nat -> (0 < n)%nat -> unique (map (fun p : key => snd p) (all_keys nz n)) = seq 0 n.
Proof.
  intros Hz Hn. assert (I : forall x, In x (map (fun p : key => snd p) (all_keys nz n)) -> (x < n)%nat) by (intros x Hx; apply in_map_iff in Hx; destruct Hx as ([[k i] j] & <- & H); apply in_all_keys in H; cbn; tauto).
  destruct (all_keys_block nz n Hz) as (rest & E). assert (E' : exists rest', map (fun p : key => snd p) (all_keys nz n) = seq 0 n ++ rest').
  { rewrite E, map_app. destruct n as [|n]; [lia|]. cbn [seq map list_prod]. rewrite map_app. eexists. rewrite <- app_assoc. f_equal. cbn [map]. f_equal. rewrite !map_map. apply map_id. }
  destruct E' as (rest' & E'). rewrite E' in *. rewrite unique_first; [|intros x Hx; apply in_seq; specialize (I x (in_or_app _ _ _ (or_intror Hx))); lia]. apply unique_is_seq; [apply seq_le_sorted|]. intros x. rewrite in_seq. lia.
Qed.

Section Run.
  Variable sqrt : Q -> Q.
  Variables root2pi fwhm : Q.
  Variables std std0 : list Q -> val.
  Variable over_sqrt : val -> nat -> val.
  Variable fit_bin : list Q -> nat -> option (val * val * val * val).
  Variable fit_expo : list Q -> list Q -> val -> result (Q * Q * (val * val)).
  Variable fit_gauss : list Q -> list nat -> Q * Q * Q -> option (list Q) -> result ((Q * Q * Q) * (val * val * val) * val).
  Variable fit_sigmoid : list Q -> list nat -> nat * Q * Q * nat -> list Q -> result (Q * val).
  Variable nearest : list (Q * Q * Q) -> Q * Q * Q -> nat.
  Notation zemrude := (zemrude sqrt root2pi fwhm std std0 over_sqrt fit_bin fit_expo fit_gauss fit_sigmoid nearest).

  (** The metadata have the bins of the map and their sizes, and the largest radius and z of the rows selected; the shape and extent are those of the rows selected. *)
  Theorem C116_metadata c pre files out : zemrude c pre files = Ok out -> let m := zo_meta out in
    map r_key (zo_map out) = list_prod (list_prod (m_dtbins m) (m_xbins m)) (m_ybins m) /\
    m_dtbins m = seq 0 (m_nbins_dt m) /\ m_xbins m = seq 0 (m_nbins_x m) /\ m_ybins m = seq 0 (m_nbins_y m) /\ m_nbins_dt m = z_nz c /\ m_nbins_x m = z_n c /\ m_nbins_y m = z_n c /\
    m_xy_range m = (z_xy0 c, z_xy1 c) /\ m_dt_range m = (z_dt0 c, z_dt1 c) /\
    m_bin_dt m * qn (z_nz c) == z_dt1 c - z_dt0 c /\ m_bin_x m * qn (z_n c) == z_xy1 c - z_xy0 c /\ m_bin_y m * qn (z_n c) == z_xy1 c - z_xy0 c /\
    (0 < z_hours c -> takes_nearest nearest -> m_extent m = total_events (zo_evol out) /\ m_shape m = total_events (zo_evol out)) /\
    exists ecs flags sel, apply_map nearest c pre (all_rows files) = Ok ecs /\ picked flags (combine (all_rows files) ecs) sel /\ (forall i, nth i flags false = true <-> passes c (combine (all_rows files) ecs) i) /\
      ignoring_nan is_greatest (map (fun r => dr_r (fst r)) sel) (m_rmax m) /\ ignoring_nan is_greatest (map (fun r => dr_z (fst r)) sel) (m_zmax m).
  Proof.
    intros H. destruct (zemrude_inv _ _ _ _ _ _ _ _ _ _ _ _ _ _ _ H) as (run & ecs & sel & ec2 & _ & _ & E1 & E2 & E3 & E4 & E5 & Em). rewrite Em. cbv zeta. unfold compute_metadata. cbn [m_dtbins m_xbins m_ybins m_nbins_dt m_nbins_x m_nbins_y m_xy_range m_dt_range m_bin_dt m_bin_x m_bin_y m_extent m_shape m_rmax m_zmax].
    destruct (created_map _ _ _ _ _ _ _ _ _ _ _ _ _ _ _ _ E3) as (Hn & Hz & f & M & C). destruct (C40_map f _ _ _ _ _ _ _ _ Hn Hz _ _ M) as (G & _ & _). apply grid_keys in G.
    assert (K : forall g : key -> nat, map (fun r => g (r_key r)) (zo_map out) = map g (all_keys (z_nz c) (z_n c))) by (intros g; rewrite <- G, map_map; reflexivity).
    rewrite (K (fun p => fst (fst p))), (K (fun p => snd (fst p))), (K (fun p => snd p)), k_bins, i_bins, j_bins by assumption.
    assert (Pn : 0 < qn (z_n c)) by now apply qn_pos. assert (Pz : 0 < qn (z_nz c)) by now apply qn_pos.
    split; [exact G|]. do 8 (split; [reflexivity|]). do 3 (split; [field; lra|]). destruct (select_rows_inv _ _ _ _ _ _ _ _ _ _ _ _ _ _ E2) as [S1 S2]. rewrite w7_eq in S1.
    split.
    - intros Hh Hg. destruct (C116_zemrude _ _ _ _ _ _ _ _ _ _ _ Hg _ _ _ _ Hh H) as (run' & ecs' & flags & sel' & ec2' & _ & _ & _ & _ & _ & _ & (n & D & Ef) & T & _).
      destruct (C39_product _ _ _ _ _ _ _ _ _ _ _ _ _ _ S2) as [_ (evb & eva & (B1 & B2) & (A1 & A2) & _ & _ & E)]. rewrite T. assert (X : length sel = length sel'); [|now split].
      assert (Nd : NoDup (map (fun r => dr_event (fst r)) sel)) by (rewrite S1; apply chosen_nodup). pose proof (applied_rows nearest Hg c pre _ _ E1) as L1. apply Forall2_len in L1.
      assert (Cb : map fst (combine (all_rows files) ecs) = all_rows files) by (clear -L1; revert ecs L1; induction (all_rows files) as [|d l IH]; intros [|ec ecs] L; try discriminate; [reflexivity|cbn; f_equal; apply IH; cbn in L; lia]).
      assert (Pa : Permutation eva (map (fun r => dr_event (fst r)) sel)).
      { apply NoDup_Permutation; [exact A1|exact Nd|]. intros z. rewrite A2, in_map_iff. split; [intros (r & Hr & Ez); apply in_map_iff in Hr; destruct Hr as (x & <- & Hx); now exists x|intros (x & Ez & Hx); exists (view x); split; [now apply in_map|exact Ez]]. }
      assert (Pb : n = length evb).
      { destruct D as (u & Nu & Iu & <-). apply Permutation_length, NoDup_Permutation; [exact Nu|exact B1|]. intros z. rewrite Iu, B2, in_map_iff. split.
        - intros (d & Ez & Hd). rewrite <- Cb in Hd. apply in_map_iff in Hd. destruct Hd as (x & <- & Hx). exists (view x). split; [now apply in_map|exact Ez].
        - intros (r & Hr & Ez). apply in_map_iff in Hr. destruct Hr as (x & <- & Hx). exists (fst x). split; [exact Ez|]. rewrite <- Cb. now apply in_map. }
      apply Permutation_length in Pa. rewrite map_length in Pa. rewrite <- Pa. rewrite Pb, E in Ef. unfold qn in Ef. rewrite inject_Z_injective in Ef. lia.
    - exists ecs, (map (chosen c (combine (all_rows files) ecs)) (combine (all_rows files) ecs)), sel. split; [exact E1|]. split; [rewrite S1; apply picked_filter|]. split; [intros i; apply flags_spec|]. split; apply max_is.
  Qed.
End Run.
Print Assumptions C116_metadata.
(** two files, of runs 8000 and 8001: an event alone in each, and one of two rows, that is not selected *)
Definition zr_row (n : Z) (x s t : Q) : drow := {| dr_kr := zem_ev x s t; dr_event := n; dr_s1e := 3; dr_s2t := Some 3; dr_r := Some x; dr_z := Some 1; dr_col := fun _ => Some 1 |}.
Definition zr_files := [{| zf_rows := Some [zr_row 1 1 10 100; zr_row 2 1 10 200]; zf_run := Some 8000%Z |}; {| zf_rows := Some [zr_row 2 1 10 200; zr_row 3 3 12 4000]; zf_run := Some 8001%Z |}].
Definition zr_conf : zconf := {| z_method := Maximum; z_xy := None; z_low := fun _ => 0; z_upp := fun _ => 2; z_lx := 30; z_hx := 60; z_ls := 0; z_hs := 10; z_rmax := 5; z_ld := 0; z_hd := 10; z_ln := 0; z_hn := 9;
  z_xy0 := 0; z_xy1 := 4; z_dt0 := 0; z_dt1 := 2; z_n := 2; z_nz := 1; z_s0 := 1; z_s1 := 20; z_fit := GaussianFit; z_min_events := 1; z_nbins := 5;
  z_hours := 1; z_x0 := 0; z_y0 := 0; z_shape := Circle; z_size := 5; z_dtbins := [0; 1; 2]; z_s1lo := 0; z_s1hi := 2; z_bins := [0; 100]; z_error := false |}.
Definition zr_pre := [bin_ex 0 (Some 10); bin_ex 4 (Some 10)].
Definition zr_run := zemrude (fun q => q) 1 2 (fun _ => None) (fun _ => None) (fun v _ => v) (fun l _ => Some (Some (median l), Some 1, None, None)) (fun _ _ _ => Err (Other 70)) (fun _ _ _ _ => Err (Other 70)) (fun _ _ _ _ => Ok (1000, None)) first_nearest zr_conf zr_pre zr_files.
(** C116_zemrude, C116_split and C116_metadata: the run finishes, with two of the three events *)
Example C116_ex : takes_nearest first_nearest /\ 0 < z_hours zr_conf /\ (exists f fs, zr_files = f :: fs /\ zf_run f = Some 8000%Z) /\ (forall f, In f zr_files -> zf_rows f <> None) /\
  exists out, zr_run = Ok out /\ map (fun r => vmap Qred (mu (r_fit r))) (zo_map out) = [Some 10; None; Some 12; None] /\ map (fun r => (v_run r, v_nevents r)) (zo_evol out) = [(8000%Z, 1%nat); (8000%Z, 1%nat)] /\ eff_total (zo_eff out) == 2 # 3 /\ m_rmax (zo_meta out) = Some 3 /\ m_extent (zo_meta out) = 2%nat.
Proof.
  split; [exact first_nearest_ok|]. split; [reflexivity|]. split; [eexists _, _; split; reflexivity|]. split; [intros f [<-|[<-|[]]]; discriminate|]. eexists. split; [vm_compute; reflexivity|]. split; [reflexivity|]. split; [reflexivity|]. split; [reflexivity|]. split; reflexivity.
Qed.
(** The extent and the shape of the metadata are not those of the map. *)
Theorem C116_map_shape_refuted : exists out, zr_run = Ok out /\ m_extent (zo_meta out) <> length (zo_map out) /\ m_shape (zo_meta out) <> length (zo_map out).
Proof. eexists. split; [vm_compute; reflexivity|]. split; discriminate. Qed.
Print Assumptions C116_map_shape_refuted.
