(** C112: a run of isaura; the file of beersheba cannot be read by it *)
From Coq Require Import String Lia.
From Verif Require Import Base ReadModel ReadSpec ReadProps PsfModel DeconvModel CorrModel CorrSpec HitsModel HitsSpec EsmModel EsmSpec PaolinaModel PaolinaSpec PaolinaProps TopoModel TopoSpec TopoProps TopoSummary ErunModel ErunSpec ErunProps CorrMore BeerModel BeerTotal BrunModel BrunSpec BrunProps IsaModel IsaSpec.
Local Open Scope nat_scope.
Notation len := List.length.

Lemma has_in names n : has names n = true <-> In n names.
Proof. unfold has. rewrite existsb_exists. split; [intros (x & H & E); apply String.eqb_eq in E; now subst|intros H; exists n; split; [exact H|apply String.eqb_refl]]. Qed.
Lemma has_not names n : has names n = false <-> ~ In n names.
Proof. rewrite <- has_in. destruct (has names n); split; intros H; easy || (exfalso; now apply H). Qed.
Lemma select_ok names : select_columns names = None <-> good_columns names.
Proof.
  unfold select_columns, good_columns. destruct (has names "E") eqn:HE; cbn [negb].
  - destruct (has names "Xpeak") eqn:HX.
    + apply has_in in HX. destruct (forallb _ wide_columns) eqn:Fa.
      * split; [intros _; left; split; [exact HX|]|reflexivity]. rewrite forallb_forall in Fa. intros n Hn. assert (Hw : In n wide_columns) by (cbn in Hn |- *; tauto). specialize (Fa n Hw). apply orb_true_iff in Fa. destruct Fa as [H|H]; [now apply has_in|]. apply String.eqb_eq in H. subst n. cbn in Hn. intuition discriminate.
      * split; [discriminate|]. intros [(_ & H)|(N & _)]; [|easy]. exfalso. assert (X : forallb (fun n => has names n || String.eqb n "Q") wide_columns = true); [|congruence]. apply forallb_forall. intros n Hn. apply orb_true_iff.
        destruct (String.eqb_spec n "Q") as [->|Nq]; [now right|left]. apply has_in. destruct (string_dec n "Xpeak") as [->|Nx]; [exact HX|]. apply H. cbn in Hn |- *. intuition (subst; try easy).
    + apply has_not in HX. destruct (forallb _ narrow_columns) eqn:Fa.
      * split; [intros _; right; split; [exact HX|]|reflexivity]. rewrite forallb_forall in Fa. intros n Hn. assert (Hw : In n narrow_columns) by (cbn in Hn |- *; tauto). specialize (Fa n Hw). apply orb_true_iff in Fa. destruct Fa as [H|H]; [now apply has_in|]. apply String.eqb_eq in H. subst n. cbn in Hn. intuition discriminate.
      * split; [discriminate|]. intros [(X & _)|(_ & H)]; [easy|]. exfalso. assert (X : forallb (fun n => has names n || String.eqb n "Q") narrow_columns = true); [|congruence]. apply forallb_forall. intros n Hn. apply orb_true_iff.
        destruct (String.eqb_spec n "Q") as [->|Nq]; [now right|left]. apply has_in. apply H. cbn in Hn |- *. intuition (subst; try easy).
  - apply has_not in HE. split; [discriminate|]. intros [(_ & H)|(_ & H)]; exfalso; apply HE, H; cbn; tauto.
Qed.
Lemma good_event names : good_columns names -> has names "event" = true.
Proof. intros [(_ & H)|(_ & H)]; apply has_in, H; cbn; tauto. Qed.

Section Reader.
  Context {K : Type}.
  Variable k_event : K -> Z.
  Lemma items_same names hits kdst run table events : select_columns names = None -> deco_items k_event names hits kdst run table events = dhits_events k_event hits kdst run table events.
  Proof using. intros E. induction events as [|ev events IH]; [reflexivity|]. cbn [deco_items dhits_events]. rewrite E, IH. reflexivity. Qed.
  Lemma file_same f : skipped f \/ readable f -> deco_from_file k_event f = dhits_from_file k_event (df_file f).
  Proof using.
    intros [S|(hits & run & runs & events & E1 & E2 & E3 & G & _)]; unfold deco_from_file, dhits_from_file.
    - destruct S as [->|[->| ->]]; [reflexivity|now destruct (f_hits (df_file f))..].
    - rewrite E1, E2, E3. cbn [run_of]. rewrite (good_event _ G). cbn [negb]. apply items_same. now apply select_ok.
  Qed.
  Lemma files_same files : (forall f, In f files -> skipped f \/ readable f) -> deco_from_files k_event files = dhits_from_files k_event (map df_file files).
  Proof using. unfold deco_from_files, dhits_from_files. induction files as [|f fs IH]; intros H; [reflexivity|]. cbn [map over_files]. rewrite file_same by (apply H; now left). rewrite IH by (intros; apply H; now right). reflexivity. Qed.

  Lemma appear_in a l x : McSpec.appear a l -> In x a -> In x l.
  Proof using. induction 1; intros Hx; [easy| |]; rewrite ?in_app_iff in *; [destruct Hx as [Hx|Hx]; [left; auto|now right]|left; auto]. Qed.
  Lemma item_hits hits kdst run events ev it : deco_item k_event hits kdst run events ev it -> In ev (map ReadModel.d_event hits) -> (forall h, In h hits -> (0 < d_E h)%Q) -> x_hits it <> [] /\ forall h, In h (x_hits it) -> (0 < d_E h)%Q.
  Proof using.
    intros (_ & _ & _ & (own & Kp & F) & _) Hin Pos. split.
    - intros E. rewrite E in F. inversion F; subst. clear F. apply in_map_iff in Hin. destruct Hin as (h & He & Hh). clear -Kp He Hh. remember [] as l. induction Kp; subst; [easy|discriminate|]. destruct Hh as [->|Hh]; [now apply H|]. now apply IHKp.
    - intros h Hh. assert (X : exists g, In g own /\ d_E h = d_E g).
      { clear -F Hh. induction F as [|a b l l' H F IH]; [easy|]. destruct Hh as [<-|Hh]; [exists a; split; [now left|]; tauto|]. destruct (IH Hh) as (g & Hg & E). exists g. split; [now right|exact E]. }
      destruct X as (g & Hg & ->). apply Pos. clear -Kp Hg. induction Kp; [easy| |]; [destruct Hg as [->|Hg]; [now left|right; auto]|right; auto].
  Qed.
  Lemma all_read files : (forall f, In f files -> skipped f \/ readable f) ->
    exists parts, deco_from_files k_event files = (concat parts, None) /\ Forall2 (read_deco k_event) files parts /\ forall it, In it (concat parts) -> x_hits it <> [] /\ forall h, In h (x_hits it) -> (0 < d_E h)%Q.
  Proof using.
    intros H. destruct (C71_deconvolved_hits k_event (map df_file files)) as (parts & E & F).
    { intros g hits Hg Eh. apply in_map_iff in Hg. destruct Hg as (f & <- & Hf). destruct (H f Hf) as [[X|[X|X]]|(hits' & run & runs & events & E1 & E2 & E3 & _ & P)]; [congruence|now left|right; now left|].
      right. right. exists events. split; [exact E3|]. intros h Hh. rewrite Eh in E1. injection E1 as <-. now apply P. }
    exists parts. split; [now rewrite files_same|]. clear E. revert parts F. induction files as [|f fs IH]; intros parts F; inversion F as [|? part ? parts' P F']; subst; [split; [constructor|easy]|].
    destruct (IH ltac:(intros; apply H; now right) parts' F') as (G1 & G2). destruct (H f (or_introl eq_refl)) as [S|(hits & run & runs & events & E1 & E2 & E3 & _ & Pos)].
    - assert (part = []) by (destruct S as [X|[X|X]]; rewrite X in P; [exact P|now destruct (f_hits (df_file f))..]). subst part. split; [constructor; [left; now split|exact G1]|]. exact G2.
    - rewrite E1, E2 in P. destruct P as (events' & evs & E3' & A & Fi). split; [constructor; [right; now exists hits, run, runs, events', evs|exact G1]|]. cbn [concat]. intros it Hit. apply in_app_iff in Hit. destruct Hit as [Hit|Hit]; [|now apply G2].
      destruct (F2_in_r _ _ _ _ Fi Hit) as (ev & Hev & Di). apply (item_hits _ _ _ _ _ _ Di); [now apply (appear_in _ _ _ A)|]. intros h Hh. now apply Pos.
  Qed.
End Reader.

Section Isaura.
  Context {K : Type}.
  Variable k_event : K -> Z.
  Variable others : drow -> nat.
  Variables (round5 : Q -> Q) (paths : list voxel -> list voxel * (voxel -> voxel -> Q)) (norm : pos3 -> Q).
  Hypothesis paths_right : paths_ok paths.
  Hypothesis paths_sym : paths_metric paths.
  Hypothesis norm_pos : forall s, (0 <= norm s)%Q.
  Variables (dims : Q * Q * Q) (strict : bool) (ethr : Q) (minv : nat) (blob : Q) (scan : option Q) (maxh : Z).
  Hypothesis dims_pos : positive_dims dims.
  Hypothesis blob_pos : (0 < blob)%Q.
  Hypothesis scan_pos : forall r, scan = Some r -> (0 <= r)%Q.

  Lemma same_copy hits : copy_Efield HE (map (to_track others) hits) = copy_Efield HEc (map (for_tracks hmeta) (map (as_hit others) hits)).
  Proof using. unfold copy_Efield. rewrite !map_map. apply map_ext. intros h. unfold to_track. destruct (d_pos h) as [[x y] z] eqn:E. cbn. now rewrite E. Qed.
  Lemma same_tracks ev hits : write_tracks_info round5 paths norm dims strict ethr minv blob scan maxh HE ev (map (to_track others) hits) =
    write_tracks_info round5 paths norm dims strict ethr minv blob scan maxh HEc ev (map (for_tracks hmeta) (map (as_hit others) hits)).
  Proof using. destruct hits as [|h hits]; [reflexivity|]. unfold write_tracks_info. rewrite same_copy. reflexivity. Qed.
  Lemma hits_written ev hits : (forall h, In h hits -> (0 < d_E h)%Q) ->
    exists w, write_tracks_info round5 paths norm dims strict ethr minv blob scan maxh HE ev (map (to_track others) hits) = Ok w /\ tracks_written hmeta round5 maxh ev (map (as_hit others) hits) w.
  Proof using paths_right paths_sym norm_pos dims_pos blob_pos scan_pos.
    intros P. rewrite same_tracks. apply (event_tracks_written hmeta round5 paths norm paths_right paths_sym norm_pos 1); try assumption; [reflexivity|]. intros h Hh. apply in_map_iff in Hh. destruct Hh as (g & <- & Hg). exists (d_E g). split; [reflexivity|now apply P].
  Qed.

  Notation run := (isaura_run others round5 paths norm dims strict ethr minv blob scan maxh).
  Definition grown (items : list (ditem (K := K))) (o o' : isaout K) : Prop :=
    exists ws, Forall2 (fun it w => x_hits it <> [] /\ tracks_written hmeta round5 maxh (x_event it) (map (as_hit others) (x_hits it)) w) items ws /\
      is_select o' = is_select o ++ map (fun it => (x_event it, true)) items /\
      is_topology o' = is_topology o ++ concat (map2 (fun it w => map (pair (x_event it)) (w_topology w)) items ws) /\
      is_summary o' = is_summary o ++ flat_map w_summary ws /\ is_tracks o' = is_tracks o ++ flat_map w_tracks ws /\
      is_hits o' = is_hits o ++ concat (map2 (fun it w => map (fun h => {| ir_number := x_event it; ir_hit := nth (o_row h) (x_hits it) no_row; ir_out := h |}) (w_hits w)) items ws) /\
      is_kdst o' = is_kdst o ++ flat_map (fun it => match x_kdst it with Some l => l | None => [] end) items /\
      is_info o' = is_info o ++ map (fun it => (x_run it, x_event it, x_time it)) items /\ is_numbers o' = is_numbers o ++ map x_event items /\ is_in o' = is_in o + len items /\ is_out o' = is_out o + len items.
  Lemma run_grown items : forall o, (forall it, In it items -> x_hits it <> [] /\ forall h, In h (x_hits it) -> (0 < d_E h)%Q) -> exists o', run items o = Ok o' /\ grown items o o'.
  Proof using paths_right paths_sym norm_pos dims_pos blob_pos scan_pos.
    induction items as [|it items IH]; intros o H.
    - exists o. split; [reflexivity|]. exists []. cbn. rewrite !app_nil_r, !Nat.add_0_r. repeat split; constructor.
    - destruct (H it (or_introl eq_refl)) as (Hn & P). destruct (hits_written (x_event it) (x_hits it) P) as (w & E & W). cbn [isaura_run]. rewrite E. cbn [rbind].
      match goal with |- context [isaura_run _ _ _ _ _ _ _ _ _ _ _ items ?o1] => destruct (IH o1) as (o' & D & (ws & G)); [intros; apply H; now right|] end.
      exists o'. split; [exact D|]. exists (w :: ws). cbn [is_select is_topology is_summary is_hits is_tracks is_kdst is_info is_numbers is_in is_out] in G.
      destruct G as (F & G1 & G2 & G3 & G4 & G5 & G6 & G7 & G8 & G9 & G10). rewrite <- app_assoc in G1, G2, G3, G4, G5, G6, G7, G8. cbn [map map2 concat flat_map app len] in *.
      assert (Wp : w_hits_passed w = true). { destruct W as [(C & _)|(_ & -> & _)]; [apply map_eq_nil in C; contradiction|reflexivity]. }
      rewrite Wp in G1. split; [now constructor|]. do 8 (split; [assumption|]). lia.
  Qed.

  Notation city := (isaura k_event others round5 paths norm dims strict ethr minv blob scan maxh).
  Theorem C112_isaura files : (forall f, In f files -> skipped f \/ readable f) ->
    exists o parts, city files = Ok o /\ Forall2 (read_deco k_event) files parts /\ isaura_tables others round5 maxh (concat parts) o.
  Proof using paths_right paths_sym norm_pos dims_pos blob_pos scan_pos.
    intros H. destruct (all_read k_event files H) as (parts & E & F & P). destruct (run_grown (concat parts) no_event_read P) as (o & R & G). exists o, parts. unfold isaura. rewrite E, R. split; [reflexivity|]. split; [exact F|exact G].
  Qed.

  (** a file with hits of a run, whose first event is listed, and without the columns that are needed, ends the run *)
  Theorem C112_columns before f after h hits rn rns events : (forall g, In g before -> skipped g \/ readable g) ->
    f_hits (df_file f) = Some (h :: hits) -> f_runs (df_file f) = Some (rn :: rns) -> f_events (df_file f) = Some events -> In (ReadModel.d_event h) (map fst events) ->
    ~ good_columns (df_columns f) -> exists e, (e = KeyError \/ e = AttributeError) /\ city (before ++ f :: after) = Err e.
  Proof using paths_right paths_sym norm_pos dims_pos blob_pos scan_pos.
    intros H E1 E2 E3 Hin B. destruct (all_read k_event before H) as (parts & E & F & P). destruct (run_grown (concat parts) no_event_read P) as (o & R & _).
    assert (X : exists e, (e = KeyError \/ e = AttributeError) /\ deco_from_file k_event f = ([], Some e)).
    { unfold deco_from_file. rewrite E1, E2, E3. cbn [run_of]. destruct (has (df_columns f) "event"); cbn [negb]; [|exists AttributeError; split; [now right|reflexivity]].
      assert (U : exists evs, unique_events (map ReadModel.d_event (h :: hits)) = ReadModel.d_event h :: evs) by (eexists; reflexivity). destruct U as (evs & ->). cbn [deco_items].
      destruct (filter (fun '(e, _) => Z.eqb e (ReadModel.d_event h)) events) as [|[e0 t] l] eqn:Ef.
      - exfalso. apply in_map_iff in Hin. destruct Hin as ([e t] & Ee & Ht). cbn in Ee. subst e. assert (In (ReadModel.d_event h, t) []) by (rewrite <- Ef; apply filter_In; split; [assumption|apply Z.eqb_refl]). easy.
      - destruct (select_columns (df_columns f)) as [e|] eqn:S; [|exfalso; apply B; now apply select_ok]. exists e. split; [|reflexivity]. unfold select_columns in S. destruct (negb _); [right; congruence|]. destruct (forallb _ _); [discriminate|left; congruence]. }
    destruct X as (e & He & X). exists e. split; [exact He|]. unfold isaura.
    assert (Y : deco_from_files k_event (before ++ f :: after) = (concat parts, Some e)).
    { clear R F P. revert parts E. unfold deco_from_files. induction before as [|g gs IH]; intros parts E.
      - cbn [app over_files] in *. injection E as <-. now rewrite X.
      - cbn [app over_files] in *. destruct (deco_from_file k_event g) as [l [e1|]] eqn:Eg; [discriminate|]. destruct (over_files (deco_from_file k_event) gs) as [l' e'] eqn:Eg'. injection E as El Ee. subst e'.
        assert (Z1 : forall k, In k gs -> skipped k \/ readable k) by (intros; apply H; now right). specialize (IH Z1 [l']). cbn [concat] in IH. rewrite app_nil_r in IH. rewrite (IH eq_refl). now rewrite El. }
    rewrite Y, R. reflexivity.
  Qed.
  (** the table that beersheba writes does not have the columns that isaura needs: a file with at least one deconvolved hit stops the run *)
  Theorem C112_beersheba_refuted deconvolution round6 m dv c (items : list (hitem (Z * hit) K)) (o : bout K) : deco_file deconvolution round6 m dv c items o ->
    city [beersheba_file o] = if len (br_deco o) =? 0 then Ok no_event_read else Err KeyError.
  Proof using.
    intros (outs & _ & _ & _ & Ed & _ & Ei & _). unfold isaura, deco_from_files. cbn [over_files]. set (lft := filter _ _) in *. clearbody lft.
    unfold deco_from_file, beersheba_file. cbn [df_file df_columns f_hits f_runs f_events f_kdst]. destruct lft as [|x xs].
    - cbn in Ed, Ei. rewrite Ed, Ei. reflexivity.
    - rewrite Ei. cbn [map run_of]. change (has beersheba_columns "event") with true. cbn [negb]. destruct (br_deco o) as [|r rs] eqn:Eo; [reflexivity|]. 
      assert (Hin : exists y, In y (x :: xs) /\ i_event (fst y) = fst r). { assert (Hr : In r (concat (map (fun y => map (pair (i_event (fst y))) (bo_deco (snd y))) (x :: xs)))) by (rewrite <- Ed; now left). apply in_concat in Hr. destruct Hr as (l & Hl & Hr). apply in_map_iff in Hl. destruct Hl as (y & <- & Hy). apply in_map_iff in Hr. destruct Hr as (z & <- & _). now exists y. }
      assert (U : exists evs, unique_events (map ReadModel.d_event (map as_row (r :: rs))) = fst r :: evs) by (destruct r as [ev [[p d] t]]; eexists; reflexivity). destruct U as (evs & ->). cbn [deco_items].
      match goal with |- context [filter ?p ?l] => destruct (filter p l) as [|[e0 t0] q] eqn:Ef end.
      + exfalso. destruct Hin as (y & Hy & Ey). match type of Ef with filter ?p ?l = [] => assert (Z0 : In (i_event (fst y), i_time (fst y)) (filter p l)) end; [|rewrite Ef in Z0; easy].
        apply filter_In. split; [|cbv beta iota; rewrite Ey; apply Z.eqb_refl]. change (In (i_event (fst y), i_time (fst y)) (map (fun i : Z * Z * Q => (snd (fst i), snd i)) (map (fun x0 : hitem (Z * hit) K * beer_out => (i_run (fst x0), i_event (fst x0), i_time (fst x0))) (x :: xs)))).
        rewrite map_map. apply in_map_iff. exists y. split; [reflexivity|exact Hy].
      + reflexivity.
  Qed.
End Isaura.
Print Assumptions C112_isaura.
Print Assumptions C112_columns.
Print Assumptions C112_beersheba_refuted.

(** a file with all the columns, an old one without Xpeak, and one without hits *)
Definition dh (ev : Z) (x e : Q) : drow := {| ReadModel.d_event := ev; d_npeak := 0; d_pos := (x, 0, 0)%Q; d_Q := 0; d_E := e; d_more := None |}.
Definition wide_file : dfile Z := {| df_columns := "Q"%string :: wide_columns; df_file := {| f_hits := Some [dh 7 3 2; dh 9 5 4; dh 7 3 6]%Q; f_kdst := Some [7%Z; 9%Z; 8%Z]; f_runs := Some [5%Z; 5%Z]; f_events := Some [(9%Z, 4000%Q); (7%Z, 3000%Q)] |} |}.
Definition narrow_file : dfile Z := {| df_columns := ["event"; "npeak"; "X"; "Y"; "Z"; "E"]%string; df_file := {| f_hits := Some [dh 2 1 1]%Q; f_kdst := None; f_runs := Some [6%Z]; f_events := Some [(2%Z, 1000%Q)] |} |}.
Definition no_hits_file : dfile Z := {| df_columns := []; df_file := {| f_hits := None; f_kdst := None; f_runs := Some [6%Z]; f_events := None |} |}.
Definition isa_files := [wide_file; no_hits_file; narrow_file].
Lemma C112_hypotheses : forall f, In f isa_files -> skipped f \/ readable f.
Proof.
  intros f [<-|[<-|[<-|[]]]].
  - right. eexists _, _, _, _. do 3 (split; [reflexivity|]). split; [apply select_ok; reflexivity|]. intros h Hh. repeat destruct Hh as [<-|Hh]; cbn; try easy; split; (tauto || reflexivity).
  - left. now left.
  - right. eexists _, _, _, _. do 3 (split; [reflexivity|]). split; [apply select_ok; reflexivity|]. intros h Hh. repeat destruct Hh as [<-|Hh]; cbn; try easy; split; (tauto || reflexivity).
Qed.
Notation city_ex := (isaura (fun k => k) (fun _ => 0) (fun x => x) unit_paths (fun _ => 1%Q) (1, 1, 1)%Q true 0%Q 1 1%Q None 10%Z).
Example C112_example : match city_ex isa_files with
  | Ok o => is_select o = [(7%Z, true); (9%Z, true); (2%Z, true)] /\ is_topology o = [(7%Z, true); (9%Z, true); (2%Z, true)] /\
      map (fun s => (s_event s, s_nhits s, s_ntrks s)) (is_summary o) = [(7%Z, 2, 1); (9%Z, 1, 1); (2%Z, 1, 1)] /\
      map (fun r => (ir_number r, d_E (ir_hit r), o_ep (ir_out r))) (is_hits o) = [(7%Z, 2, Some 2); (7%Z, 6, Some 6); (9%Z, 4, Some 4); (2%Z, 1, Some 1)]%Q /\ is_kdst o = [7%Z; 9%Z] /\
      is_info o = [(5%Z, 7%Z, 3000); (5%Z, 9%Z, 4000); (6%Z, 2%Z, 1000)]%Q /\ is_numbers o = [7%Z; 9%Z; 2%Z] /\ is_in o = 3
  | Err _ => False
  end.
Proof. vm_compute. repeat split. Qed.
(** the run of beersheba of C109, read by isaura *)
Example C112_beersheba_ex : match beersheba (fun k => k) first_nearest deco_one floor6 EsmProps.map_ex [Some 2%Q] Maximum None conf_0 2 [2; 2; 2] beer_files with
  | Ok o => len (br_deco o) = 1 /\ city_ex [beersheba_file o] = Err KeyError
  | Err _ => False
  end.
Proof. vm_compute. repeat split. Qed.
Lemma C112_beersheba_bad : ~ good_columns beersheba_columns.
Proof. rewrite <- select_ok. discriminate. Qed.
Print Assumptions C112_beersheba_bad.
