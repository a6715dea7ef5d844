(** C109: a run of beersheba *)
From Verif Require Import Base PeaksModel PsfModel PsfSpec DeconvModel DeconvSpec DeconvPeak ReadModel ReadSpec ReadProps CorrModel CorrSpec CorrMore CorrProps HitsModel HitsSpec HitsProofs HitsProps EsmModel EsmSpec EsmProps BeerModel BeerSpec BeerProofs BeerProps BeerTotal TopoProps ErunProps BrunModel BrunSpec.
Local Open Scope Q_scope.

Section Beersheba.
  Context {K : Type}.
  Variable kdst_event : K -> Z.
  Variable nearest : list (Q * Q * Q) -> Q * Q * Q -> nat.
  Hypothesis griddata : takes_nearest nearest.
  Variable deconvolution : list (Q * Q * Q) -> Q -> list (Q * Q * Q).
  Variable round6 : Q -> Q.
  Variables (m : list kbin) (dvs : list (option Q)) (method : norm_method) (xy : option region) (c : beer_conf).
  Hypothesis map_ok : usable_map m method xy.
  Hypothesis map_pos : forall b mu, In b m -> kb_mu b = Some mu -> 0 < mu.
  Hypothesis velocities : b_apply_z c = true -> numbers dvs <> [].
  Hypothesis th_pos : 0 < b_threshold c.
  Hypothesis sensible_drop : sensible (b_drop_dist c) (b_cluster_size c).
  Hypothesis energy_type : (b_energy c < 2)%nat.
  Notation event := (beersheba_event nearest deconvolution round6 m dvs method xy c).
  Notation run := (beersheba_run nearest deconvolution round6 m dvs method xy c).
  Notation city := (beersheba kdst_event nearest deconvolution round6 m dvs method xy c).

  Lemma event_right dv ts hits out : (forall hits, exists out, snd (correct nearest m dvs method xy false (b_apply_z c) hits) = Ok out /\ Forall2 (corrected_hit m dv) hits out) ->
    (forall h, In h hits -> 0 <= HitsSpec.val (hE h)) -> event ts hits = Ok out ->
    hits_over m dv c hits (bo_hits out) /\ deconvolved deconvolution round6 c ts (bo_hits out) (bo_passed out) (bo_deco out).
  Proof using map_pos th_pos sensible_drop energy_type.
    intros C He E. destruct (C100_peaks nearest deconvolution round6 m dvs method xy c ts hits out sensible_drop energy_type E) as (Eh & Et & df & kept & P1 & P2 & P3). split.
    - unfold beersheba_hits in Eh. destruct (C hits) as (mid & Em & F). rewrite Em in Eh. cbn [rbind] in Eh. injection Eh as Eh. rewrite <- Eh.
      assert (Pm : forall h', In h' mid -> 0 <= HitsSpec.val (hE h') /\ 0 <= HitsSpec.val (hEc h')).
      { intros h' Hh. destruct (EsmProps.F2_in_right _ _ _ _ F Hh) as (h & I & Ch). apply (corrected_energies m dv h h' map_pos Ch). now apply He. }
      exists mid. split; [exact F|]. split; [now rewrite threshold_merge_places by assumption|]. split; [intros h Hh; now apply (merged_both _ _ _ th_pos Pm h Hh)|].
      intros Hc. apply thresholder_energy; [assumption|exact Pm|].
      intros h' Hh. destruct (EsmProps.F2_in_right _ _ _ _ F Hh) as (h & I & Ch). destruct (Hc h I) as (g & G1 & G3 & G4). destruct (F2_in_left _ _ _ _ F G1) as (g' & D1 & D). exists g'. split; [assumption|].
      destruct Ch as (_ & Cp & _). destruct D as (_ & Dp & _ & _ & Dq & _). split; [now rewrite Dq|]. unfold eligible in *. rewrite Cp, Dp. assumption.
    - split; [exact Et|]. split; [exists df, kept; split; [exact P1|split; [exact P2|exact P3]]|]. intros err Herr. exact (C100_energy nearest deconvolution round6 m dvs method xy err c ts hits out Herr sensible_drop energy_type E).
  Qed.

  Definition further dv (items : list (hitem (Z * hit) K)) (o o' : bout K) : Prop :=
    exists outs, Forall2 (fun it b => hits_over m dv c (map snd (i_hits it)) (bo_hits b) /\ deconvolved deconvolution round6 c (i_time it) (bo_hits b) (bo_passed b) (bo_deco b)) items outs /\
      br_hits o' = br_hits o ++ concat (map2 (fun it b => map (pair (i_event it)) (bo_hits b)) items outs) /\
      br_filter o' = br_filter o ++ map2 (fun it b => (i_event it, bo_passed b)) items outs /\
      let left := filter (fun x => bo_passed (snd x)) (combine items outs) in
      br_deco o' = br_deco o ++ concat (map (fun x => map (pair (i_event (fst x))) (bo_deco (snd x))) left) /\
      br_kdst o' = br_kdst o ++ flat_map (fun x => i_kdst (fst x)) left /\ br_info o' = br_info o ++ map (fun x => (i_run (fst x), i_event (fst x), i_time (fst x))) left /\
      br_numbers o' = br_numbers o ++ map (fun x => i_event (fst x)) left /\ br_in o' = (br_in o + length items)%nat /\ br_out o' = (br_out o + length left)%nat /\
      br_passed o' = (br_passed o + length left)%nat /\ (br_passed o' + br_failed o' = br_passed o + br_failed o + length items)%nat.

  Lemma run_further : exists dv, velocity dvs (b_apply_z c) dv /\ forall items o o', (forall it h, In it items -> In h (i_hits it) -> 0 <= HitsSpec.val (hE (snd h))) -> run items o = Ok o' -> further dv items o o'.
  Proof using griddata map_ok map_pos velocities th_pos sensible_drop energy_type.
    destruct (velocity_one nearest griddata m dvs method xy (b_apply_z c) map_ok velocities) as (dv & Hv & C). exists dv. split; [exact Hv|]. induction items as [|it items IH]; intros o o' He R.
    - injection R as <-. exists []. cbn. rewrite !app_nil_r, !Nat.add_0_r. repeat split; constructor.
    - cbn [beersheba_run] in R. destruct (event (i_time it) (map snd (i_hits it))) as [b|] eqn:E; [|discriminate]. cbn [rbind] in R.
      assert (G : hits_over m dv c (map snd (i_hits it)) (bo_hits b) /\ deconvolved deconvolution round6 c (i_time it) (bo_hits b) (bo_passed b) (bo_deco b)).
      { apply event_right with (hits := map snd (i_hits it)) (ts := i_time it); [exact C| |exact E]. intros h Hh. apply in_map_iff in Hh. destruct Hh as (g & <- & Hg). apply (He it g (or_introl eq_refl) Hg). }
      destruct (IH _ _ (fun it' h Hi Hh => He it' h (or_intror Hi) Hh) R) as (outs & F & X). exists (b :: outs). split; [now constructor|]. clear IH R E G C F. cbn [br_hits br_filter br_deco br_kdst br_info br_numbers br_in br_out br_passed br_failed] in X.
      cbn [map2 combine concat length filter snd]. destruct (bo_passed b); cbn [br_hits br_filter br_deco br_kdst br_info br_numbers br_in br_out br_passed br_failed] in X; rewrite <- ?app_assoc in X; destruct X as (X1 & X2 & X3 & X4 & X5 & X6 & X7 & X8 & X9 & X10);
        cbn [map concat flat_map length fst snd app] in *; repeat (split; [first [assumption|lia]|]); lia.
  Qed.

  Lemma item_energies files parts : (forall f hits h, In f files -> f_hits f = Some hits -> In h hits -> 0 <= HitsSpec.val (hE (snd h))) -> Forall2 (read_of_file fst kdst_event) files parts ->
    forall it h, In it (concat parts) -> In h (i_hits it) -> 0 <= HitsSpec.val (hE (snd h)).
  Proof using.
    intros He F it h Hit Hh. apply in_concat in Hit. destruct Hit as (part & Hp & Hit). destruct (F2_in_r _ _ _ _ F Hp) as (f & Hf & [(_ & ->)|(hits & kdst & rn & events & Cp & F')]); [easy|].
    destruct (F2_in_r _ _ _ _ F' Hit) as (e & _ & (_ & _ & _ & Kp & _)). destruct Cp as (Eh & _). apply (He f hits h Hf Eh). clear -Kp Hh. revert Hh. induction Kp; intros Hh; [easy| |now right; auto]. destruct Hh as [->|Hh]; [now left|right; auto].
  Qed.

  (** the tables of every run that ends well *)
  Theorem C109_tables n_dim sizes files o : (forall f, In f files -> well_formed kdst_event f) -> (forall f hits h, In f files -> f_hits f = Some hits -> In h hits -> 0 <= HitsSpec.val (hE (snd h))) ->
    city n_dim sizes files = Ok o ->
    exists parts dv, Forall2 (read_of_file fst kdst_event) files parts /\ velocity dvs (b_apply_z c) dv /\ deco_file deconvolution round6 m dv c (concat parts) o.
  Proof using griddata map_ok map_pos velocities th_pos sensible_drop energy_type.
    intros Wf He. destruct (C71_one_item_per_event fst kdst_event files Wf) as (parts & E & F). unfold beersheba. destruct (check_configuration _ _ _ _); [|discriminate]. cbn [rbind]. rewrite E.
    destruct (run (concat parts) nothing_deconvolved) as [o1|] eqn:R; [|discriminate]. cbn [rbind]. intros X. injection X as <-. destruct run_further as (dv & Hv & G). exists parts, dv. split; [exact F|]. split; [exact Hv|].
    exact (G _ _ _ (item_energies files parts He F) R).
  Qed.

  (** with two distances, and images without negative pixels, every run over well-formed files ends well *)
  Lemma run_total (items : list (hitem (Z * hit) K)) o dx dy : (forall it h, In it items -> In h (i_hits it) -> 0 <= HitsSpec.val (hE (snd h))) -> (forall pts z, deconvolution pts z <> [] /\ forall p, In p (deconvolution pts z) -> 0 <= snd p) ->
    0 <= b_e_cut c -> b_drop_dist c = [dx; dy] -> exists o', run items o = Ok o'.
  Proof using griddata map_ok map_pos velocities th_pos.
    intros He Im Ec Ed. revert o. induction items as [|it items IH]; intros o; [exists o; reflexivity|]. cbn [beersheba_run].
    destruct (C100_total nearest deconvolution round6 m dvs method xy c (i_time it) (map snd (i_hits it)) dx dy griddata map_ok velocities map_pos th_pos) as (b & ->); [|exact Im|exact Ec|exact Ed|].
    - intros h Hh. apply in_map_iff in Hh. destruct Hh as (g & <- & Hg). apply (He it g (or_introl eq_refl) Hg).
    - cbn [rbind]. apply IH. intros it' h Hi. apply He. now right.
  Qed.
  Theorem C109_run n_dim sizes files dx dy : (n_dim <= 2)%Z -> Forall (fun n => Z.of_nat n = n_dim) sizes -> b_drop_dist c = [dx; dy] -> 0 <= b_e_cut c ->
    (forall pts z, deconvolution pts z <> [] /\ forall p, In p (deconvolution pts z) -> 0 <= snd p) ->
    (forall f, In f files -> well_formed kdst_event f) -> (forall f hits h, In f files -> f_hits f = Some hits -> In h hits -> 0 <= HitsSpec.val (hE (snd h))) ->
    exists o parts dv, city n_dim sizes files = Ok o /\ Forall2 (read_of_file fst kdst_event) files parts /\ velocity dvs (b_apply_z c) dv /\ deco_file deconvolution round6 m dv c (concat parts) o.
  Proof using griddata map_ok map_pos velocities th_pos sensible_drop energy_type.
    intros Nd Sz Ed Ec Im Wf He. destruct (C71_one_item_per_event fst kdst_event files Wf) as (parts & E & F). destruct (run_total (concat parts) nothing_deconvolved dx dy (item_energies files parts He F) Im Ec Ed) as (o & R).
    assert (X : city n_dim sizes files = Ok o).
    { unfold beersheba, check_configuration. assert (S0 : existsb (fun n => negb (Z.of_nat n =? n_dim)%Z) sizes = false). { clear -Sz. induction Sz as [|n l H F IH]; [reflexivity|]. cbn. now rewrite H, Z.eqb_refl. }
      rewrite S0. assert (S1 : (2 <? n_dim)%Z = false) by (apply Z.ltb_ge; lia). rewrite S1, Ed. cbn [length rbind]. rewrite E, R. reflexivity. }
    destruct (C109_tables n_dim sizes files o Wf He X) as (parts' & dv & T). exists o, parts', dv. now split.
  Qed.

  (** a file whose tables have different numbers of events ends the run, if the events before it do not *)
  Theorem C109_bad_file n_dim sizes before f after hits kdst rn events dx dy : (n_dim <= 2)%Z -> Forall (fun n => Z.of_nat n = n_dim) sizes -> b_drop_dist c = [dx; dy] -> 0 <= b_e_cut c ->
    (forall pts z, deconvolution pts z <> [] /\ forall p, In p (deconvolution pts z) -> 0 <= snd p) ->
    (forall g, In g before -> well_formed kdst_event g) -> (forall g hits h, In g before -> f_hits g = Some hits -> In h hits -> 0 <= HitsSpec.val (hE (snd h))) ->
    complete f hits kdst rn events -> (exists evs, NoDup evs /\ (forall e, In e evs <-> In e (map kdst_event kdst)) /\ length evs <> length events) ->
    city n_dim sizes (before ++ f :: after) = Err ConfigModel.InvalidInputFileStructure.
  Proof using griddata map_ok map_pos velocities th_pos.
    intros Nd Sz Ed Ec Im Wf He Cp X. destruct (C71_numbers_differ fst kdst_event before f after hits kdst rn events Wf Cp X) as (parts & E & F). destruct (run_total (concat parts) nothing_deconvolved dx dy (item_energies before parts He F) Im Ec Ed) as (o & R).
    unfold beersheba, check_configuration. assert (S0 : existsb (fun n => negb (Z.of_nat n =? n_dim)%Z) sizes = false). { clear -Sz. induction Sz as [|n l H F IH]; [reflexivity|]. cbn. now rewrite H, Z.eqb_refl. }
    rewrite S0. assert (S1 : (2 <? n_dim)%Z = false) by now apply Z.ltb_ge. rewrite S1, Ed. cbn [length rbind]. rewrite E, R. reflexivity.
  Qed.
End Beersheba.
Print Assumptions C109_tables.
Print Assumptions C109_run.
Print Assumptions C109_bad_file.

(** a configuration that is refused before any file is read *)
Theorem C109_configuration n_dim sizes drop cluster : 
  match check_configuration n_dim sizes drop cluster with
  | Ok _ => Forall (fun n => Z.of_nat n = n_dim) sizes /\ (n_dim <= 2)%Z /\ (length drop = 2%nat \/ length drop = 3%nat /\ cluster <> None)
  | Err e => e = ValueError /\ (~ Forall (fun n => Z.of_nat n = n_dim) sizes \/ length drop <> 2%nat /\ length drop <> 3%nat) \/ e = NotImplementedError /\ (2 < n_dim)%Z \/ e = TypeError /\ length drop = 3%nat /\ cluster = None
  end.
Proof.
  unfold check_configuration. destruct (existsb (fun n => negb (Z.of_nat n =? n_dim)%Z) sizes) eqn:S0.
  - left. split; [reflexivity|]. left. intros F. apply existsb_exists in S0. destruct S0 as (n & Hn & E). rewrite Forall_forall in F. rewrite (F n Hn), Z.eqb_refl in E. discriminate.
  - assert (F : Forall (fun n => Z.of_nat n = n_dim) sizes). { clear -S0. induction sizes as [|n l IH]; [constructor|]. cbn in S0. apply orb_false_iff in S0. destruct S0 as [A B]. constructor; [|auto]. apply negb_false_iff, Z.eqb_eq in A. exact A. }
    destruct (Z.ltb_spec 2 n_dim) as [L|L]; [right; left; now split|]. destruct drop as [|a [|b [|d [|e l]]]]; cbn [length]; try (left; split; [reflexivity|right; split; discriminate]).
    + repeat split; try assumption; try lia; now left.
    + destruct cluster; [split; [assumption|split; [lia|right; now split]]|right; right; now split].
Qed.
Theorem C109_refused {K} (kdst_event : K -> Z) nearest deconvolution round6 m dvs method xy c n_dim sizes files e : check_configuration n_dim sizes (b_drop_dist c) (b_cluster_size c) = Err e ->
  beersheba kdst_event nearest deconvolution round6 m dvs method xy c n_dim sizes files = Err e.
Proof. intros E. unfold beersheba. now rewrite E. Qed.

(** the events of C100 and of C80, and one without hits *)
Definition deco_one (pts : list (Q * Q * Q)) (z : Q) : list (Q * Q * Q) := [(5, 0, 2)].
Definition beer_files : list (hfile (Z * hit) Z) :=
  [{| f_hits := Some (map (pair 7%Z) event_ex); f_kdst := Some [7%Z; 9%Z]; f_runs := Some [5%Z; 5%Z]; f_events := Some [(7%Z, 3000); (9%Z, 4000)] |}].
Lemma C109_hypotheses : (forall f, In f beer_files -> well_formed (fun k => k) f) /\ (forall f hits h, In f beer_files -> f_hits f = Some hits -> In h hits -> 0 <= HitsSpec.val (hE (snd h))) /\
  (forall pts z, deco_one pts z <> [] /\ forall p, In p (deco_one pts z) -> 0 <= snd p).
Proof.
  split; [|split].
  - intros f [<-|[]]. right. eexists _, _, _, _. split; [split; [reflexivity|]; split; [reflexivity|]; split; [reflexivity|eexists; reflexivity]|].
    intros evs N H. assert (P : Permutation evs [7%Z; 9%Z]); [|exact (Permutation_length P)]. apply NoDup_Permutation; [exact N|repeat constructor; cbn; intuition discriminate|]. intros x. rewrite H. cbn. tauto.
  - intros f hits h [<-|[]] E Hh. injection E as <-. change (In h (map (pair 7%Z) event_ex)) in Hh. apply in_map_iff in Hh. destruct Hh as (g & <- & Hg). now apply C100_hypotheses.
  - intros pts z. split; [discriminate|]. intros p [<-|[]]. cbn. lra.
Qed.
Example C109_example : match beersheba (fun k => k) first_nearest deco_one floor6 map_ex [Some 2] Maximum None conf_0 2 [2; 2; 2]%nat beer_files with
  | Ok o => length (br_hits o) = 4%nat /\ br_filter o = [(7%Z, true); (9%Z, false)] /\ map (fun r => (fst r, peak_of (snd r))) (br_deco o) = [(7%Z, [0])] /\ br_kdst o = [7%Z] /\ br_info o = [(5%Z, 7%Z, 3000)] /\
            br_numbers o = [7%Z] /\ (br_in o, br_out o, br_passed o, br_failed o) = (2, 1, 1, 1)%nat
  | Err _ => False
  end.
Proof. vm_compute. repeat split. Qed.
Print Assumptions C109_configuration.
Print Assumptions C109_refused.
