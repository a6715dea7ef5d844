(** C127: what eutropia and zemrude leave in their files *)
From Coq Require Import String.
From Verif Require Import Base Arrays WfmModel PsfModel PsfPeak CorrModel KmapModel CorrMore ZemModel TevModel ZrunModel ZrunMeta.
From Verif Require Import HaltBase HaltProofs HaltStop MapfModel MapfSpec MapfProofs.
Local Open Scope nat_scope.

Section Eutropia.
  Variables (round2 : Q -> Q) (x0 x1 y0 y1 : Q) (sensors : list (Q * Q)) (zbins xsectors ysectors xe ye : list Q).
  Notation city := (eutropia_city round2 x0 x1 y0 y1 sensors zbins xsectors ysectors xe ye).
  Notation result_of := (eutropia round2 x0 x1 y0 y1 sensors zbins xsectors ysectors xe ye).
  Notation psfs_of := (psfs_of_file round2 x0 x1 y0 y1 sensors zbins xsectors ysectors xe ye).

  (** A run of eutropia ends without an exception if and only if the compression exists, all files can be opened and there is some PSF; it leaves then the filters that
      were asked for, the events of all the files that have the tables, with their runs, and the PSFs, whatever there was before. *)
  Theorem C127_eutropia_ends compression files items stop old : uses files items stop ->
    ((exists d, city compression files old = (d, Ok tt)) <-> (exists f rows, filters compression = Ok f /\ stop = None /\ result_of (map ei_hits items) = Ok (Some rows))) /\
    (forall d f rows, city compression files old = (d, Ok tt) -> filters compression = Ok f -> result_of (map ei_hits items) = Ok (Some rows) ->
       exists t, d = Some t /\ eu_filters t = f /\ has_events items t /\ eu_psf t = Table rows).
  Proof.
    intros U. pose proof (uses_is _ _ _ U) as S. unfold city, eutropia. unfold eutropia_city. rewrite bind_call. destruct (filters compression) as [f|e] eqn:F.
    2:{ split; [split; [intros (d & D); discriminate|intros (f & r & H & _); discriminate]|intros d f r H; discriminate]. }
    rewrite bind_put, within_exec. unfold eutropia_body. rewrite S.
    destruct (rmap psfs_of (map ei_hits items)) as [frames|e] eqn:R; cbn [rbind].
    2:{ destruct (feed_err psfs_of items None {| eu_filters := f; eu_runs := []; eu_events := []; eu_psf := NoGroup |} e R) as (b & i & a & _ & _ & _ & E4). rewrite exec_bind, E4. cbn [fst snd].
        split; [split; [intros (d & D); discriminate|intros (f' & r & _ & _ & H); discriminate]|intros d f' r H; discriminate]. }
    rewrite (bind_ok _ _ _ _ _ (feed_ok psfs_of items None _ frames R)). destruct stop as [e|].
    { cbn. split; [split; [intros (d & D); discriminate|intros (f' & r & _ & H & _); discriminate]|intros d f' r H; discriminate]. }
    destruct (fold_left combine_psfs (concat frames) None) as [rows|].
    2:{ cbn. split; [split; [intros (d & D); discriminate|intros (f' & r & _ & _ & H); discriminate]|intros d f' r H; discriminate]. }
    split; [split|].
    - intros _. exists f, rows. auto.
    - intros _. eexists. unfold write_psf. destruct rows; reflexivity.
    - intros d f' r H F' R'. injection F' as <-. injection R' as <-. destruct rows; cbn in H; injection H as <-; eexists; (split; [reflexivity|]); repeat split.
  Qed.

  (** A run of eutropia that fails leaves no PSF: there is no table of PSFs in its file. When the compression does not exist, the old file is left as it was. When the
      PSFs of an input file raise, the events of that file and of those before are in the output. When an input file cannot be opened, the events of those before it. When
      there is no PSF, it fails with an AttributeError after all the events are written. *)
  Theorem C127_eutropia_fails compression files items stop old d e : uses files items stop -> city compression files old = (d, Err e) ->
    (filters compression = Err e /\ d = old) \/
    exists t, d = Some t /\ filters compression = Ok (eu_filters t) /\
     ((exists before it after, items = before ++ it :: after /\ (forall b, In b before -> exists fr, psfs_of (ei_hits b) = Ok fr) /\ psfs_of (ei_hits it) = Err e /\
         has_events (before ++ [it]) t /\ eu_psf t = NoGroup) \/
      (stop = Some e /\ (forall b, In b items -> exists fr, psfs_of (ei_hits b) = Ok fr) /\ has_events items t /\ eu_psf t = NoGroup) \/
      (stop = None /\ result_of (map ei_hits items) = Ok None /\ e = AttributeError /\ has_events items t /\ eu_psf t = NoTable)).
  Proof.
    intros U. pose proof (uses_is _ _ _ U) as S. unfold eutropia, eutropia_city. rewrite bind_call. destruct (filters compression) as [f|e1] eqn:F.
    2:{ intros H. injection H as <- <-. left. auto. }
    rewrite bind_put, within_exec. unfold eutropia_body. rewrite S. intros H. right.
    destruct (rmap psfs_of (map ei_hits items)) as [frames|e1] eqn:R; cbn [rbind].
    2:{ destruct (feed_err psfs_of items None {| eu_filters := f; eu_runs := []; eu_events := []; eu_psf := NoGroup |} e1 R) as (b & i & a & E1 & E2 & E3 & E4). rewrite exec_bind, E4 in H.
        cbn [fst snd] in H. injection H as <- <-. eexists. split; [reflexivity|]. split; [reflexivity|]. left. exists b, i, a. repeat split; assumption. }
    rewrite (bind_ok _ _ _ _ _ (feed_ok psfs_of items None _ frames R)) in H.
    assert (A : forall b, In b items -> exists fr, psfs_of (ei_hits b) = Ok fr).
    { clear -R. revert frames R. induction items as [|it l IH]; intros frames; cbn [map rmap]; [intros _ b []|]. destruct (psfs_of (ei_hits it)) as [fr|] eqn:E; [|discriminate]. cbn [rbind].
      destruct (rmap psfs_of (map ei_hits l)) as [frs|] eqn:R; [|discriminate]. intros _ b [<-|B]; [eauto|exact (IH _ eq_refl b B)]. }
    destruct stop as [e1|].
    { cbn in H. injection H as <- <-. eexists. split; [reflexivity|]. split; [reflexivity|]. right. left. repeat split. exact A. }
    destruct (fold_left combine_psfs (concat frames) None) as [rows|] eqn:G.
    { exfalso. unfold write_psf in H. destruct rows; discriminate. }
    cbn in H. injection H as <- <-. eexists. split; [reflexivity|]. split; [reflexivity|]. right. right. repeat split.
  Qed.

  (** Wherever a run of eutropia is stopped, the file is the old one, or has the first of the events, each with its run but for the last, and no row of PSF, or all the
      events and the complete table of PSFs: the table is never that of some of the files. *)
  Theorem C127_eutropia_stopped compression files items stop old d : uses files items stop -> In d (visited (city compression files) old) ->
    d = old \/ exists t, d = Some t /\ filters compression = Ok (eu_filters t) /\ begins (eu_runs t) (map fst (events_of items)) /\ begins (eu_events t) (map snd (events_of items)) /\
      length (eu_events t) <= length (eu_runs t) <= S (length (eu_events t)) /\
      (eu_psf t = NoGroup \/
       has_events items t /\ stop = None /\ (eu_psf t = NoTable \/ exists rows, result_of (map ei_hits items) = Ok (Some rows) /\ (eu_psf t = Table [] \/ eu_psf t = Table rows))).
  Proof.
    intros U. pose proof (uses_is _ _ _ U) as S. unfold eutropia, eutropia_city. intros H. apply in_call in H. destruct (filters compression) as [f|e1] eqn:F; [|auto].
    apply in_put in H. destruct H as [->|H]; [auto|]. right. apply within_visits in H. destruct H as (t & -> & H). exists t. split; [reflexivity|].
    unfold eutropia_body in H. rewrite S in H.
    assert (B : between (events_of items) {| eu_filters := f; eu_runs := []; eu_events := []; eu_psf := NoGroup |} t -> Ok f = Ok (eu_filters t) /\ begins (eu_runs t) (map fst (events_of items)) /\ begins (eu_events t) (map snd (events_of items)) /\
      length (eu_events t) <= length (eu_runs t) <= Datatypes.S (length (eu_events t)) /\ eu_psf t = NoGroup).
    { intros (B1 & B2 & n & m & B3 & B4 & B5 & B6). cbn in *. rewrite B1, B5, B6, !map_length, !firstn_length. split; [reflexivity|]. split; [|split; [|split; [lia|exact B2]]].
      - exists (map fst (skipn m (events_of items))). now rewrite <- map_app, firstn_skipn.
      - exists (map snd (skipn n (events_of items))). now rewrite <- map_app, firstn_skipn. }
    apply in_bind in H. destruct H as [H|(t1 & acc & E & H)].
    - apply feed_visits in H. destruct (B H) as (B1 & B2 & B3 & B4 & B5). auto 10.
    - destruct (rmap psfs_of (map ei_hits items)) as [frames|e1] eqn:R; cbn [rbind].
      2:{ destruct (feed_err psfs_of items None {| eu_filters := f; eu_runs := []; eu_events := []; eu_psf := NoGroup |} e1 R) as (b & i & a & _ & _ & _ & E4). rewrite E4 in E. discriminate. }
      rewrite (feed_ok psfs_of items None _ frames R) in E. injection E as <- <-.
      set (all := more_events (events_of items) {| eu_filters := f; eu_runs := []; eu_events := []; eu_psf := NoGroup |}) in *.
      assert (A : forall n u, eu_filters u = f -> eu_runs u = map fst (events_of items) -> eu_events u = map snd (events_of items) -> eu_psf u = n -> Ok f = Ok (eu_filters u) /\ begins (eu_runs u) (map fst (events_of items)) /\
        begins (eu_events u) (map snd (events_of items)) /\ length (eu_events u) <= length (eu_runs u) <= Datatypes.S (length (eu_events u)) /\ has_events items u /\ eu_psf u = n).
      { intros n u A1 A2 A3 A4. unfold has_events. rewrite A1, A2, A3, A4, !map_length. repeat split; try lia; exists []; now rewrite app_nil_r. }
      destruct stop as [e1|].
      + cbn in H. destruct H as [<-|[]]. destruct (A NoGroup all eq_refl eq_refl eq_refl eq_refl) as (A1 & A2 & A3 & A4 & A5 & A6). auto 10.
      + unfold write_psf in H. apply in_put in H. destruct H as [->|H].
        { destruct (A NoGroup all eq_refl eq_refl eq_refl eq_refl) as (A1 & A2 & A3 & A4 & A5 & A6). auto 10. }
        cbn [eu_filters eu_runs eu_events eu_psf] in H. destruct (fold_left combine_psfs (concat frames) None) as [rows|].
        * assert (K : In t (visited (put_psf (Table []) ;;; match rows with [] => ret tt | _ => put_psf (Table rows) end) {| eu_filters := f; eu_runs := map fst (events_of items); eu_events := map snd (events_of items); eu_psf := NoTable |})) by exact H.
          assert (V : t = {| eu_filters := f; eu_runs := map fst (events_of items); eu_events := map snd (events_of items); eu_psf := NoTable |} \/
            (exists l, t = {| eu_filters := f; eu_runs := map fst (events_of items); eu_events := map snd (events_of items); eu_psf := Table l |} /\ (l = [] \/ l = rows))).
          { apply in_put in K. destruct K as [->|K]; [auto|]. right. destruct rows as [|r rows].
            - apply in_ret in K. subst. exists []. auto.
            - apply in_put1 in K. destruct K as [->| ->]; [exists []|exists (r :: rows)]; auto. }
          clear H K. destruct V as [->|(l & -> & L)].
          -- destruct (A NoTable {| eu_filters := f; eu_runs := map fst (events_of items); eu_events := map snd (events_of items); eu_psf := NoTable |} eq_refl eq_refl eq_refl eq_refl) as (A1 & A2 & A3 & A4 & A5 & A6). auto 10.
          -- destruct (A (Table l) {| eu_filters := f; eu_runs := map fst (events_of items); eu_events := map snd (events_of items); eu_psf := Table l |} eq_refl eq_refl eq_refl eq_refl) as (A1 & A2 & A3 & A4 & A5 & A6).
             do 4 (split; [assumption|]). right. split; [exact A5|]. split; [reflexivity|]. right. exists rows. split; [reflexivity|]. destruct L as [-> | ->]; auto.
        * destruct H as [<-|[]]. destruct (A NoTable {| eu_filters := f; eu_runs := map fst (events_of items); eu_events := map snd (events_of items); eu_psf := NoTable |} eq_refl eq_refl eq_refl eq_refl) as (A1 & A2 & A3 & A4 & A5 & A6).
          change (eu_filters all) with f. change (eu_runs all) with (map fst (events_of items)). change (eu_events all) with (map snd (events_of items)). auto 10.
  Qed.
End Eutropia.

Section Zemrude.
  Variables (fit : fit_name) (run : list kbin -> result zout) (control evolution : zout -> result unit).
  Notation city := (zemrude_city fit run control evolution).
  Lemma save_is o t : save_map o t = ({| zt_filters := no_filters; zt_meta := Some (zo_meta o); zt_eff := Some [zo_eff o]; zt_map := Some (zo_map o); zt_evol := Some (zo_evol o); zt_other := [] |}, Ok tt).
  Proof. unfold save_map, write_meta, write_eff, write_map, write_evol. destruct (zo_map o), (zo_evol o); reflexivity. Qed.

  (** Whatever zemrude finds at the place of its output, a run that can read the preliminary map, knows the fit and the compression, and can make the map, leaves in its file
      exactly the four tables of the run, also when the plots fail afterwards. It fails if and only if one of the sets of plots does, the first before the second. *)
  Theorem C127_zemrude_map pre compression f m o old : pre = Ok m -> fit <> OtherFit -> filters compression = Ok f -> run m = Ok o ->
    exists t, has_tables o t /\ city pre compression old = (Some t, match control o with Ok _ => evolution o | Err e => Err e end).
  Proof.
    intros -> X F R. exists {| zt_filters := no_filters; zt_meta := Some (zo_meta o); zt_eff := Some [zo_eff o]; zt_map := Some (zo_map o); zt_evol := Some (zo_evol o); zt_other := [] |}. split; [repeat split|].
    unfold zemrude_city. rewrite bind_call. cbv beta iota.
    assert (K : (f <- call (filters compression) ;; put (fun _ => Some (new_file f)) ;;; out <- call (run m) ;; within (fun d => match d with Some t => t | None => new_file f end) (fun t _ => Some t) (save_map out) ;;; call (control out) ;;; call (evolution out)) old =
      (Some {| zt_filters := no_filters; zt_meta := Some (zo_meta o); zt_eff := Some [zo_eff o]; zt_map := Some (zo_map o); zt_evol := Some (zo_evol o); zt_other := [] |}, match control o with Ok _ => evolution o | Err e => Err e end)).
    { rewrite bind_call, F, bind_put, bind_call, R, exec_bind, within_exec, save_is. cbn [fst snd]. rewrite bind_call. destruct (control o); [|reflexivity]. destruct (evolution o); reflexivity. }
    destruct fit; [exact K|exact K|now destruct X].
  Qed.
  (** When the preliminary map cannot be read, or the fit or the compression does not exist, the old file is left as it was; when the map cannot be made, the old file is
      lost and the new one has no table. *)
  Theorem C127_zemrude_fails pre compression old :
    (forall e, pre = Err e -> city pre compression old = (old, Err e)) /\
    (forall m, pre = Ok m -> fit = OtherFit -> city pre compression old = (old, Err ValueError)) /\
    (forall m e, pre = Ok m -> fit <> OtherFit -> filters compression = Err e -> city pre compression old = (old, Err e)) /\
    (forall m f e, pre = Ok m -> fit <> OtherFit -> filters compression = Ok f -> run m = Err e -> exists t, no_tables t /\ zt_filters t = f /\ city pre compression old = (Some t, Err e)).
  Proof.
    split; [intros e ->; reflexivity|]. split; [intros m -> F; unfold zemrude_city; rewrite F; reflexivity|]. split.
    - intros m e -> X F. unfold zemrude_city. rewrite bind_call. cbv beta iota. destruct fit; [| |now destruct X]; rewrite bind_call, F; reflexivity.
    - intros m f e -> X F R. exists (new_file f). split; [repeat split|]. split; [reflexivity|]. unfold zemrude_city. rewrite bind_call. cbv beta iota. destruct fit; [| |now destruct X]; rewrite bind_call, F, bind_put, bind_call, R; reflexivity.
  Qed.
  Lemma save_visits o t u : In u (visited (save_map o) t) -> u = t \/ part_of o u.
  Proof.
    unfold save_map. intros H.
    apply in_bind in H. destruct H as [H|(t1 & [] & E & H)].
    { unfold write_meta in H. apply in_put in H. destruct H as [H|H]; [auto|]. right. apply in_put1 in H. destruct H as [->| ->]; unfold part_of, some_of; cbn; repeat split; auto; try (intros X; now destruct X). }
    cbn in E. injection E as <-. right. apply in_bind in H. destruct H as [H|(t2 & [] & E & H)].
    { unfold write_eff in H. cbv zeta in H. apply in_put in H. destruct H as [->|H]; [|apply in_put1 in H; destruct H as [->| ->]]; unfold part_of, some_of; cbn; repeat split; auto; try (intros X; now destruct X). }
    cbn in E. injection E as <-. apply in_bind in H. destruct H as [H|(t3 & [] & E & H)].
    { unfold write_map in H. cbv zeta in H. apply in_put in H. destruct H as [->|H]; [|destruct (zo_map o) eqn:M; [apply in_ret in H|apply in_put1 in H; destruct H as [H|H]]; subst u]; unfold part_of, some_of; cbn; rewrite ?M; repeat split; auto; try (intros X; now destruct X). }
    assert (T : t3 = {| zt_filters := no_filters; zt_meta := Some (zo_meta o); zt_eff := Some [zo_eff o]; zt_map := Some (zo_map o); zt_evol := None; zt_other := [] |}).
    { unfold write_map in E. destruct (zo_map o); cbn in E; injection E as <-; reflexivity. }
    clear E. subst t3. unfold write_evol in H. cbv zeta in H. apply in_put in H. destruct H as [->|H]; [|destruct (zo_evol o) eqn:M; [apply in_ret in H|apply in_put1 in H; destruct H as [H|H]]; subst u]; unfold part_of, some_of; cbn; rewrite ?M; repeat split; auto; try (intros X; now destruct X).
  Qed.
  (** Wherever a run of zemrude is stopped, the file is the old one, or has no table, or has, complete or without rows, the first of the four tables of the run in the order
      metadata, efficiencies, map, evolution; a table that has rows is complete, and so are those before it. *)
  Theorem C127_zemrude_stopped pre compression old d : In d (visited (city pre compression) old) ->
    d = old \/ exists t, d = Some t /\ (no_tables t \/ exists m o, pre = Ok m /\ run m = Ok o /\ part_of o t).
  Proof.
    unfold zemrude_city. intros H. apply in_call in H. destruct pre as [m|]; [|auto].
    assert (K : In d (visited (f <- call (filters compression) ;; put (fun _ => Some (new_file f)) ;;; out <- call (run m) ;; within (fun d => match d with Some t => t | None => new_file f end) (fun t _ => Some t) (save_map out) ;;; call (control out) ;;; call (evolution out)) old) ->
      d = old \/ exists t, d = Some t /\ (no_tables t \/ exists m' o, @Ok (list kbin) m = Ok m' /\ run m' = Ok o /\ part_of o t)).
    { clear H. intros H. apply in_call in H. destruct (filters compression) as [f|]; [|auto]. apply in_put in H. destruct H as [->|H]; [auto|]. right. apply in_call in H. destruct (run m) as [o|] eqn:R.
      2:{ subst d. exists (new_file f). split; [reflexivity|]. left. repeat split. }
      apply in_bind in H. destruct H as [H|(t1 & [] & E & H)].
      - apply within_visits in H. destruct H as (v & -> & H). exists v. split; [reflexivity|]. apply save_visits in H. destruct H as [->|H]; [left; repeat split|]. right. exists m, o. auto.
      - rewrite within_exec, save_is in E. cbn [fst snd] in E. injection E as <-. apply in_call in H. eexists. destruct (control o); [|subst d].
        + unfold call in H. destruct (evolution o); cbn in H; destruct H as [<-|[]]; (split; [reflexivity|]); right; exists m, o; unfold part_of, some_of; cbn; repeat split; auto.
        + split; [reflexivity|]. right. exists m, o. unfold part_of, some_of; cbn; repeat split; auto. }
    destruct fit; [exact (K H)|exact (K H)|]. cbn in H. destruct H as [<-|[]]. auto.
  Qed.
  (** The compression has no effect: the files of two runs that differ in it are the same. *)
  Theorem C127_zemrude_compression pre c1 c2 f1 f2 m o old : pre = Ok m -> fit <> OtherFit -> filters c1 = Ok f1 -> filters c2 = Ok f2 -> run m = Ok o ->
    city pre c1 old = city pre c2 old /\ exists t, fst (city pre c1 old) = Some t /\ zt_filters t = no_filters.
  Proof.
    intros -> X F1 F2 R.
    assert (K : forall c f, filters c = Ok f -> city (Ok m) c old = (Some {| zt_filters := no_filters; zt_meta := Some (zo_meta o); zt_eff := Some [zo_eff o]; zt_map := Some (zo_map o); zt_evol := Some (zo_evol o); zt_other := [] |}, match control o with Ok _ => evolution o | Err e => Err e end)).
    { intros c f F. unfold zemrude_city. rewrite bind_call. cbv beta iota.
      destruct fit; [| |now destruct X]; rewrite bind_call, F, bind_put, bind_call, R, exec_bind, within_exec, save_is; cbn [fst snd]; rewrite bind_call; (destruct (control o); [|reflexivity]); destruct (evolution o); reflexivity. }
    rewrite (K c1 f1 F1), (K c2 f2 F2). split; [reflexivity|]. eexists. split; reflexivity.
  Qed.
End Zemrude.
Print Assumptions C127_eutropia_ends.
Print Assumptions C127_eutropia_fails.
Print Assumptions C127_eutropia_stopped.
Print Assumptions C127_zemrude_map.
Print Assumptions C127_zemrude_fails.
Print Assumptions C127_zemrude_stopped.
Print Assumptions C127_zemrude_compression.

(** The names of compressions that exist, and what they stand for; any other is refused with a ValueError. *)
Theorem C127_compression name : (forall n lib, filters name = Ok (n, lib) <-> compression_of name n lib) /\ (forall e, filters name = Err e -> e = ValueError).
Proof.
  split.
  - intros n lib. split.
    + unfold filters. repeat match goal with |- context [(name =? ?s)%string] => destruct (String.eqb_spec name s) as [->|]; [intros H; injection H as <- <-|] end; [constructor| | | | |constructor|constructor|discriminate].
      * apply (with_zlib "1"). now left.
      * apply (with_zlib "4"). right. now left.
      * apply (with_zlib "5"). right. right. now left.
      * apply (with_zlib "9"). do 3 right. now left.
    + intros [|d m H| |]; try reflexivity. destruct H as [H|[H|[H|[H|[]]]]]; injection H as <- <-; reflexivity.
  - intros e. unfold filters. repeat match goal with |- context [(name =? ?s)%string] => destruct (name =? s)%string; [discriminate|] end. intros H. now injection H as <-.
Qed.
Print Assumptions C127_compression.
Example C127_compression_ex : filters "BLZ4HC5" = Ok (5, "blosc:lz4hc"%string) /\ filters "ZLIB2" = Err ValueError.
Proof. split; reflexivity. Qed.

(** C127_eutropia_ends and C127_eutropia_stopped: two files with one peak each, and one without tables *)
Definition eu_files : list efile := [Opened {| ei_hits := peak_hits 1; ei_run := 7; ei_events := [(1%Z, 10%Q)] |}; Without; Opened {| ei_hits := peak_hits 2; ei_run := 8; ei_events := [(2%Z, 20%Q); (3%Z, 30%Q)] |}].
Definition eu_items : list eitem := [{| ei_hits := peak_hits 1; ei_run := 7; ei_events := [(1%Z, 10%Q)] |}; {| ei_hits := peak_hits 2; ei_run := 8; ei_events := [(2%Z, 20%Q); (3%Z, 30%Q)] |}].
Notation eu_city := (eutropia_city (fun x => x) (-15) 15 (-15) 15 [(0, 0); (10, 0)] [0; 10] [-(20); 20] [-(20); 20] [-(5); 5; 15] [-(5); 5])%Q.
Example C127_eutropia_ends_ex : uses eu_files eu_items None /\ exists t, eu_city "ZLIB4"%string eu_files None = (Some t, Ok tt) /\ eu_filters t = (4, "zlib"%string) /\ eu_runs t = [7; 8; 8]%Z /\
  eu_events t = [(1%Z, 10%Q); (2%Z, 20%Q); (3%Z, 30%Q)] /\ exists rows, eu_psf t = Table rows /\ rows <> [] /\ In (Some t) (visited (eu_city "ZLIB4"%string eu_files) None).
Proof.
  assert (U : uses eu_files eu_items None) by (repeat constructor). split; [exact U|].
  destruct C41_example as (_ & _ & rows & R & M).
  destruct (C127_eutropia_ends (fun x => x) (-15)%Q 15%Q (-15)%Q 15%Q [(0, 0); (10, 0)]%Q [0; 10]%Q [-(20); 20]%Q [-(20); 20]%Q [-(5); 5; 15]%Q [-(5); 5]%Q "ZLIB4" eu_files eu_items None None U) as [[_ H] K].
  destruct H as [d D]; [exists (4, "zlib"%string), rows; repeat split; exact R|]. destruct (K d (4, "zlib"%string) rows D eq_refl R) as (t & -> & T1 & (T2 & T3) & T4).
  exists t. split; [exact D|]. split; [exact T1|]. split; [exact T2|]. split; [exact T3|]. exists rows. split; [exact T4|]. split; [intros ->; discriminate|].
  generalize (end_visited (eu_city "ZLIB4"%string eu_files) None). rewrite D. cbn [fst]. auto.
Qed.
(** C127_eutropia_fails: a file that does not exist after the first, all without hits, and a name of compression that does not exist *)
Example C127_eutropia_fails_ex :
  (exists t, eu_city "NOCOMPR"%string (firstn 1 eu_files ++ [Broken (Other 91)] ++ skipn 2 eu_files) None = (Some t, Err (Other 91)) /\ eu_runs t = [7]%Z /\ eu_psf t = NoGroup) /\
  (exists t, eu_city "NOCOMPR"%string [Opened {| ei_hits := []; ei_run := 7; ei_events := [(1%Z, 10%Q)] |}] None = (Some t, Err AttributeError) /\ eu_runs t = [7]%Z /\ eu_psf t = NoTable) /\
  eu_city "GZIP"%string eu_files None = (None, Err ValueError).
Proof.
  split; [|split; [eexists; repeat split|reflexivity]]. eexists. split; [vm_compute; reflexivity|]. split; reflexivity.
Qed.

(** the run of the example of C116, with other input files *)
Definition zr_make (files : list zfile) (pre : list kbin) : result zout := (zemrude (fun q => q) 1 2 (fun _ => None) (fun _ => None) (fun v _ => v) (fun l _ => Some (Some (median l), Some 1, None, None)) (fun _ _ _ => Err (Other 70)) (fun _ _ _ _ => Err (Other 70)) (fun _ _ _ _ => Ok (1000, None)) first_nearest zr_conf pre files)%Q.
Lemma zr_made : zr_make zr_files zr_pre = zr_run.
Proof. unfold zr_make, zr_run. reflexivity. Qed.
Lemma zr_not_made : zr_make [] zr_pre = Err ValueError.
Proof. unfold zr_make, zemrude. reflexivity. Qed.
Definition zr_city (files : list zfile) (control : result unit) := zemrude_city GaussianFit (zr_make files) (fun _ => control) (fun _ => Ok tt).
Opaque zr_make.
Lemma not_nil {A B} (f : A -> B) l a m : map f l = a :: m -> l <> [].
Proof. intros E ->. discriminate. Qed.
(** C127_zemrude_map, C127_zemrude_stopped and C127_zemrude_compression: over an old file, with the plots failing *)
Definition old_file : zemf := {| zt_filters := (4, "zlib"%string); zt_meta := None; zt_eff := None; zt_map := None; zt_evol := Some []; zt_other := ["mapinfo"%string] |}.
Example C127_zemrude_map_ex : exists o t, zr_make zr_files zr_pre = Ok o /\ zo_map o <> [] /\ zo_evol o <> [] /\ zr_city zr_files (Err ValueError) (Ok zr_pre) "ZLIB4" (Some old_file) = (Some t, Err ValueError) /\ has_tables o t /\
  In (Some t) (visited (zr_city zr_files (Err ValueError) (Ok zr_pre) "ZLIB4") (Some old_file)).
Proof.
  destruct C116_ex as (_ & _ & _ & _ & o & O & M & V & _). rewrite <- zr_made in O.
  destruct (C127_zemrude_map GaussianFit (zr_make zr_files) (fun _ => Err ValueError) (fun _ => Ok tt) (Ok zr_pre) "ZLIB4" (4, "zlib"%string) zr_pre o (Some old_file) eq_refl) as (t & T & E); [discriminate|reflexivity|exact O|].
  exists o, t. split; [exact O|]. split; [exact (not_nil _ _ _ _ M)|]. split; [exact (not_nil _ _ _ _ V)|]. unfold zr_city. split; [exact E|]. split; [exact T|].
  pose proof (end_visited (zemrude_city GaussianFit (zr_make zr_files) (fun _ => Err ValueError) (fun _ => Ok tt) (Ok zr_pre) "ZLIB4") (Some old_file)) as L. rewrite E in L. exact L.
Qed.
(** C127_zemrude_fails: no input file, over an old file *)
Example C127_zemrude_fails_ex : (exists t, no_tables t /\ zr_city [] (Ok tt) (Ok zr_pre) "ZLIB4" (Some old_file) = (Some t, Err ValueError)) /\
  zr_city [] (Ok tt) (Err (Other 91)) "ZLIB4" (Some old_file) = (Some old_file, Err (Other 91)) /\ zr_city [] (Ok tt) (Ok zr_pre) "GZIP" (Some old_file) = (Some old_file, Err ValueError).
Proof.
  unfold zr_city. destruct (C127_zemrude_fails GaussianFit (zr_make []) (fun _ => Ok tt) (fun _ => Ok tt) (Ok zr_pre) "ZLIB4" (Some old_file)) as (_ & _ & _ & F).
  destruct (F zr_pre (4, "zlib"%string) ValueError eq_refl) as (t & T & _ & E); [discriminate|reflexivity|exact zr_not_made|].
  split; [exists t; auto|]. split.
  - apply (C127_zemrude_fails GaussianFit (zr_make []) (fun _ => Ok tt) (fun _ => Ok tt)). reflexivity.
  - apply (C127_zemrude_fails GaussianFit (zr_make []) (fun _ => Ok tt) (fun _ => Ok tt) (Ok zr_pre) "GZIP" (Some old_file)) with (m := zr_pre); [reflexivity|discriminate|reflexivity].
Qed.
(** The documentation of the code says that the file has the compression that was asked for: it has not. *)
Theorem C127_zemrude_compression_refuted :
  ~ (forall fit run control evolution pre compression f old t, filters compression = Ok f -> zemrude_city fit run control evolution pre compression old = (Some t, Ok tt) -> zt_filters t = f).
Proof.
  intros H. destruct C116_ex as (_ & _ & _ & _ & o & O & _).
  destruct (C127_zemrude_compression GaussianFit (fun _ => Ok o) (fun _ => Ok tt) (fun _ => Ok tt) (Ok []) "ZLIB4" "NOCOMPR" (4, "zlib"%string) (0, ""%string) [] o None eq_refl) as (_ & t & T & F); [discriminate|reflexivity|reflexivity|reflexivity|].
  destruct (C127_zemrude_map GaussianFit (fun _ => Ok o) (fun _ => Ok tt) (fun _ => Ok tt) (Ok []) "ZLIB4" (4, "zlib"%string) [] o None eq_refl) as (t' & _ & E); [discriminate|reflexivity|reflexivity|].
  rewrite E in T. cbn [fst] in T. injection T as ->. specialize (H _ _ _ _ _ _ _ _ _ (eq_refl : filters "ZLIB4" = Ok (4, "zlib"%string)) E). rewrite F in H. discriminate H.
Qed.
Print Assumptions C127_zemrude_compression_refuted.
