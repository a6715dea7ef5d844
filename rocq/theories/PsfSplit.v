(** C41: splitting the data in files does not change the PSF *)
From Verif Require Import Base Arrays PeaksModel PeaksProofs BuffersProofs WfmProps PmapioProofs DbModel DbProps CorrModel CorrSpec CorrProps CorrMore PsfModel PsfSpec PsfProps PsfCity.
Local Open Scope Q_scope.

(** ---- groups of separate parts ---- *)
Lemma distinct_keys_app a b : (forall k k', In k a -> In k' b -> ~ same_key k k') -> distinct_keys (a ++ b) = distinct_keys a ++ distinct_keys b.
Proof.
  induction a as [|k a IH]; intros H; cbn; [reflexivity|]. f_equal. rewrite IH by (intros x y Hx Hy; apply H; [now right|assumption]). rewrite filter_app. f_equal.
  apply filter_all_in. intros k' Hk'. apply negb_true_iff, key_eqb_false. apply H; [now left|now apply distinct_keys_in].
Qed.
Definition groups (df : list hit) : list (list hit) := map (fun k => filter (fun h => key_eqb k (peak h)) df) (group_keys (map peak df)).
Definition groups' (df : list hit) : list (list hit) := map (fun k => filter (fun h => key_eqb k (peak h)) df) (distinct_keys (map peak df)).
Lemma groups_perm df : Permutation (groups df) (groups' df). Proof. apply Permutation_map, group_keys_perm. Qed.
Lemma groups_app a b : (forall h h', In h a -> In h' b -> ~ same_key (peak h) (peak h')) -> groups' (a ++ b) = groups' a ++ groups' b.
Proof.
  intros H. unfold groups'. rewrite map_app, distinct_keys_app.
  - rewrite map_app. f_equal; apply map_ext_in; intros k Hk; apply distinct_keys_in, in_map_iff in Hk; destruct Hk as (h & <- & Hh); rewrite filter_app.
    + rewrite (filter_none_in _ b), app_nil_r; [reflexivity|]. intros h' Hh'. apply key_eqb_false. now apply H.
    + rewrite (filter_none_in _ a); [reflexivity|]. intros h' Hh'. apply key_eqb_false. intros K. apply (H h' h Hh' Hh). now apply same_sym.
  - intros k k' Hk Hk'. apply in_map_iff in Hk, Hk'. destruct Hk as (h & <- & Hh), Hk' as (h' & <- & Hh'). now apply H.
Qed.
Lemma groups_concat ls : separate_peaks ls -> Permutation (groups (concat ls)) (concat (map groups ls)).
Proof.
  intros S. transitivity (groups' (concat ls)); [apply groups_perm|]. transitivity (concat (map groups' ls)).
  - induction S as [|l ls F S IH]; cbn [concat map]; [reflexivity|]. rewrite groups_app; [now apply Permutation_app_head|]. intros h h' Hh Hh'. apply in_concat in Hh'. destruct Hh' as (m & Hm & Hh'). rewrite Forall_forall in F. now apply (F m Hm).
  - clear S. induction ls as [|l ls IH]; cbn [concat map]; [constructor|]. apply Permutation_app; [symmetry; apply groups_perm|assumption].
Qed.
Section Split.
  Variables (x0 x1 y0 y1 : Q) (sensors : list (Q * Q)).
  Notation process := (process_hits x0 x1 y0 y1 sensors).
  Notation process1 := (process_peak x0 x1 y0 y1 sensors).
  Lemma process_groups df : process df = rbind (rmap process1 (groups df)) (fun ls => Ok (concat ls)).
  Proof. unfold process_hits, groups. f_equal. induction (group_keys (map peak df)) as [|k l IH]; cbn; [reflexivity|]. now rewrite IH. Qed.
  Lemma process_list ls : rbind (rmap process ls) (fun r => Ok (concat r)) = rbind (rmap process1 (concat (map groups ls))) (fun r => Ok (concat r)).
  Proof.
    induction ls as [|l ls IH]; [reflexivity|]. cbn [rmap map concat]. rewrite rmap_app', process_groups. destruct (rmap process1 (groups l)) as [r|e]; cbn [rbind]; [|reflexivity].
    destruct (rmap process ls) as [r1|e1], (rmap process1 (concat (map groups ls))) as [r2|e2]; cbn [rbind] in IH |- *; try discriminate; [|congruence]. injection IH as IH. cbn [concat]. now rewrite concat_app, IH.
  Qed.
  (** processing separate parts one by one gives the same rows as processing them together *)
  Lemma process_concat ls : separate_peaks ls ->
    match process (concat ls), rmap process ls with
    | Ok rows, Ok parts => Permutation rows (concat parts)
    | Err _, Err _ => True
    | _, _ => False
    end.
  Proof.
    intros S. assert (P := groups_concat ls S). assert (E := process_list ls). rewrite process_groups. destruct (rmap process1 (groups (concat ls))) as [r|e] eqn:R.
    - destruct (rmap_perm process1 _ _ P r R) as (r' & R' & P'). rewrite R' in E. cbn [rbind] in *. destruct (rmap process ls) as [parts|e]; [|discriminate]. cbn [rbind] in E. injection E as E. rewrite E. now apply concat_perm.
    - cbn [rbind]. destruct (rmap process1 (concat (map groups ls))) as [r'|e'] eqn:R'.
      + destruct (rmap_perm process1 _ _ (Permutation_sym P) r' R') as (r & K & _). congruence.
      + destruct (rmap process ls); [discriminate|exact I].
  Qed.
  Variables (round2 : Q -> Q) (xsectors ysectors xe ye zbins : list Q).
  Hypothesis Sx : StronglySorted Qlt xe.
  Hypothesis Sy : StronglySorted Qlt ye.
  Notation city := (eutropia round2 x0 x1 y0 y1 sensors zbins xsectors ysectors xe ye).
  Notation entries := (entries round2 xsectors ysectors xe ye).
  Notation keyed := (keyed round2 xsectors ysectors xe ye).
  Notation all_entries := (flat_map (fun zr : Q * list phit => entries (fst zr) (snd zr))).
  Lemma flat_map_plus {A B} (f g : A -> list B) l : Permutation (flat_map (fun a => f a ++ g a) l) (flat_map f l ++ flat_map g l).
  Proof.
    induction l as [|a l IH]; cbn; [constructor|]. rewrite IH, <- !app_assoc. apply Permutation_app_head. rewrite !app_assoc. apply Permutation_app_tail, Permutation_app_comm.
  Qed.
  Lemma flat_map_ext_perm {A B} (f g : A -> list B) l : (forall a, In a l -> Permutation (f a) (g a)) -> Permutation (flat_map f l) (flat_map g l).
  Proof. induction l as [|a l IH]; intros H; cbn; [constructor|]. apply Permutation_app; [apply H; now left|apply IH; intros; apply H; now right]. Qed.
  Lemma entries_app z a b : Permutation (entries z (a ++ b)) (entries z a ++ entries z b).
  Proof.
    unfold PsfSpec.entries. rewrite <- flat_map_plus. apply flat_map_ext_perm. intros s _. rewrite <- flat_map_plus. apply flat_map_ext_perm. intros ij _. now rewrite filter_app, map_app.
  Qed.
  Lemma entries_perm z a b : Permutation a b -> Permutation (entries z a) (entries z b).
  Proof. intros P. apply flat_map_ext_perm. intros s _. apply flat_map_ext_perm. intros ij _. now apply Permutation_map, filter_perm. Qed.
  Lemma entries_nil z : entries z [] = [].
  Proof. unfold PsfSpec.entries. cbn. rewrite (flat_map_ext _ (fun _ => [])); [apply flat_map_nil|]. intros s. apply flat_map_nil. Qed.
  Lemma entries_concat z ls : Permutation (entries z (concat ls)) (flat_map (entries z) ls).
  Proof. induction ls as [|l ls IH]; cbn; [now rewrite entries_nil|]. now rewrite entries_app, IH. Qed.
  Lemma flat_map_swap {A B C} (f : A -> B -> list C) l m : Permutation (flat_map (fun a => flat_map (f a) m) l) (flat_map (fun b => flat_map (fun a => f a b) l) m).
  Proof. induction l as [|a l IH]; cbn; [now rewrite flat_map_nil|]. now rewrite IH, flat_map_plus. Qed.
  (** processed rows, with [] where the processing fails *)
  Definition rows_of (f : list hit) (ab : Q * Q) : list phit := match process (slice_of f ab) with Ok r => r | Err _ => [] end.
  Definition mid (ab : Q * Q) : Q := (fst ab + snd ab) / 2.
  Lemma rmap_slices l sl : rmap (process_slice x0 x1 y0 y1 sensors) l = Ok sl -> sl = map (fun fz => (mid (snd fz), rows_of (fst fz) (snd fz))) l.
  Proof.
    revert sl. induction l as [|fz l IH]; intros sl E; cbn in *; [injection E as <-; reflexivity|]. unfold rows_of at 1. unfold process_slice at 1 in E. destruct (process (slice_of (fst fz) (snd fz))) as [r|e]; [|discriminate]. cbn in *. destruct (rmap _ l) as [sl'|]; [|discriminate]. injection E as <-. now rewrite (IH sl' eq_refl).
  Qed.
  Lemma rmap_ok_iff {A B} (f : A -> result B) l : (exists r, rmap f l = Ok r) <-> forall a, In a l -> exists b, f a = Ok b.
  Proof.
    induction l as [|a l IH]; cbn; [split; [intros _ a []|intros _; now eexists]|]. split.
    - intros (r & E) x [<-|H]; [destruct (f a); [eexists; reflexivity|discriminate]|]. apply IH; [|assumption]. destruct (f a); [|discriminate]. destruct (rmap f l); [eexists; reflexivity|discriminate].
    - intros H. destruct (H a (or_introl eq_refl)) as (b & ->). destruct IH as [_ IH]. destruct IH as (r & ->); [auto|eexists; reflexivity].
  Qed.
  Lemma slice_concat files ab : slice_of (concat files) ab = concat (map (fun f => slice_of f ab) files).
  Proof. unfold slice_of. induction files as [|f l IH]; cbn; [reflexivity|]. now rewrite filter_app, IH. Qed.
  Lemma slice_separate files ab : separate_peaks files -> separate_peaks (map (fun f => slice_of f ab) files).
  Proof.
    induction 1 as [|f l F S IH]; cbn; constructor; [|assumption]. rewrite Forall_forall in *. intros g Hg. apply in_map_iff in Hg. destruct Hg as (g' & <- & Hg). intros h h' Hh Hh'. apply filter_In in Hh, Hh'. apply (F g' Hg); tauto.
  Qed.
  Lemma slices_ok files : separate_peaks files -> ((exists sl, rmap (process_slice x0 x1 y0 y1 sensors) (list_prod files (intervals zbins)) = Ok sl) <-> (exists sl, rmap (process_slice x0 x1 y0 y1 sensors) (list_prod [concat files] (intervals zbins)) = Ok sl)).
  Proof.
    intros S. rewrite !rmap_ok_iff. split.
    - intros H [f ab] K. apply in_prod_iff in K. destruct K as [[<-|[]] Hab]. unfold process_slice. cbn [fst snd]. rewrite slice_concat. assert (P := process_concat _ (slice_separate files ab S)).
      destruct (process (concat (map (fun f => slice_of f ab) files))); [eexists; reflexivity|]. exfalso. assert (Q : exists r, rmap process (map (fun f => slice_of f ab) files) = Ok r).
      { apply rmap_ok_iff. intros g Hg. apply in_map_iff in Hg. destruct Hg as (f & <- & Hf). destruct (H (f, ab)) as (b & E); [apply in_prod_iff; now split|]. unfold process_slice in E. cbn [fst snd] in E. destruct (process (slice_of f ab)); [eexists; reflexivity|discriminate]. }
      destruct Q as (r & Q). now rewrite Q in P.
    - intros H [f ab] K. apply in_prod_iff in K. destruct K as [Hf Hab]. destruct (H (concat files, ab)) as (b & E); [apply in_prod_iff; split; [now left|assumption]|]. unfold process_slice in E |- *. cbn [fst snd] in E |- *. rewrite slice_concat in E. assert (P := process_concat _ (slice_separate files ab S)).
      destruct (process (concat (map (fun f => slice_of f ab) files))) as [r|]; [|discriminate]. destruct (rmap process (map (fun f => slice_of f ab) files)) as [parts|] eqn:R; [|destruct P]. assert (Q : exists r, rmap process (map (fun f => slice_of f ab) files) = Ok r) by (eexists; exact R).
      destruct (proj1 (rmap_ok_iff _ _) Q (slice_of f ab)) as (rows & ->); [apply in_map_iff; now exists f|]. eexists. reflexivity.
  Qed.
  Lemma rows_concat files ab : separate_peaks files -> (forall f, In f files -> exists r, process (slice_of f ab) = Ok r) -> Permutation (rows_of (concat files) ab) (concat (map (fun f => rows_of f ab) files)).
  Proof.
    intros S H. unfold rows_of at 1. rewrite slice_concat. assert (P := process_concat _ (slice_separate files ab S)).
    assert (Q : rmap process (map (fun f => slice_of f ab) files) = Ok (map (fun f => rows_of f ab) files)).
    { clear S P. induction files as [|f l IH]; cbn; [reflexivity|]. unfold rows_of at 1. destruct (H f (or_introl eq_refl)) as (r & ->). rewrite IH; [reflexivity|]. intros; apply H; now right. }
    rewrite Q in P. destruct (process (concat _)); [exact P|destruct P].
  Qed.
  (** if no peak is spread over two files, the city gives for the files what it gives for one file with all their hits *)
  Theorem C41_split files : separate_peaks files -> same_result (city files) (city [concat files]).
  Proof.
    intros S. rewrite !city_slices. assert (O := slices_ok files S).
    destruct (rmap (process_slice x0 x1 y0 y1 sensors) (list_prod files (intervals zbins))) as [sl|e] eqn:E, (rmap (process_slice x0 x1 y0 y1 sensors) (list_prod [concat files] (intervals zbins))) as [sl'|e'] eqn:E'; cbn [rbind].
    2: { exfalso. destruct O as [O _]. destruct O as (s & K); [now eexists|discriminate]. }
    2: { exfalso. destruct O as [_ O]. destruct O as (s & K); [now eexists|discriminate]. }
    2: exact I.
    clear O. assert (OK : forall f ab, In f files -> In ab (intervals zbins) -> exists r, process (slice_of f ab) = Ok r).
    { intros f ab Hf Hab. assert (Q : exists r, rmap (process_slice x0 x1 y0 y1 sensors) (list_prod files (intervals zbins)) = Ok r) by (eexists; exact E). apply (proj1 (rmap_ok_iff _ _)) with (a := (f, ab)) in Q; [|now apply in_prod_iff]. destruct Q as (b & Q). unfold process_slice in Q. cbn [fst snd] in Q. destruct (process (slice_of f ab)); [eexists; reflexivity|discriminate]. }
    apply rmap_slices in E, E'. subst sl sl'. cbn [list_prod]. rewrite app_nil_r.
    assert (RC : forall ab, In ab (intervals zbins) -> Permutation (rows_of (concat files) ab) (concat (map (fun f => rows_of f ab) files))) by (intros ab Hab; apply rows_concat; [assumption|]; intros f Hf; now apply OK).
    assert (IN : forall z h, (exists zr, In zr (map (fun fz => (mid (snd fz), rows_of (fst fz) (snd fz))) (list_prod files (intervals zbins))) /\ fst zr = z /\ In h (snd zr))
                         <-> (exists zr, In zr (map (fun fz => (mid (snd fz), rows_of (fst fz) (snd fz))) (map (fun y => (concat files, y)) (intervals zbins))) /\ fst zr = z /\ In h (snd zr))).
    { intros z h. split.
      - intros (zr & H & Ez & Hh). apply in_map_iff in H. destruct H as ([f ab] & <- & H). apply in_prod_iff in H. cbn [fst snd] in *. exists (mid ab, rows_of (concat files) ab). split; [rewrite map_map; apply in_map_iff; exists ab; tauto|]. split; [assumption|]. cbn [snd].
        eapply Permutation_in; [symmetry; apply RC; tauto|]. apply in_concat. exists (rows_of f ab). split; [apply in_map_iff; exists f; tauto|assumption].
      - intros (zr & H & Ez & Hh). rewrite map_map in H. apply in_map_iff in H. destruct H as (ab & <- & Hab). cbn [fst snd] in *. apply (Permutation_in _ (RC ab Hab)) in Hh. apply in_concat in Hh. destruct Hh as (r & Hr & Hh). apply in_map_iff in Hr. destruct Hr as (f & <- & Hf).
        exists (mid ab, rows_of f ab). split; [|now split]. apply in_map_iff. exists (f, ab). split; [reflexivity|now apply in_prod_iff]. }
    apply same_slices; try assumption.
    - rewrite !flat_map_concat_map, !map_map, <- !flat_map_concat_map. cbn [fst snd].
      assert (LP : forall (F : list hit -> Q * Q -> list (key * Q)) l, flat_map (fun fz => F (fst fz) (snd fz)) (list_prod l (intervals zbins)) = flat_map (fun f => flat_map (F f) (intervals zbins)) l).
      { intros F l. induction l as [|f l IH]; cbn; [reflexivity|]. rewrite flat_map_app, IH. f_equal. now rewrite flat_map_concat_map, map_map, <- flat_map_concat_map. }
      rewrite (LP (fun f ab => entries (mid ab) (rows_of f ab))), flat_map_swap. apply flat_map_ext_perm. intros ab Hab. rewrite (entries_perm _ _ _ (RC ab Hab)), entries_concat. now rewrite !flat_map_concat_map, map_map.
    - intros k. unfold PsfSpec.keyed. split.
      + intros (zr & H & s & ij & h & Hs & Hh & R). destruct (proj1 (IN (fst zr) h)) as (zr' & H' & Ez & Hh'); [now exists zr|]. exists zr'. split; [assumption|]. exists s, ij, h. now rewrite Ez.
      + intros (zr & H & s & ij & h & Hs & Hh & R). destruct (proj2 (IN (fst zr) h)) as (zr' & H' & Ez & Hh'); [now exists zr|]. exists zr'. split; [assumption|]. exists s, ij, h. now rewrite Ez.
    - unfold occupied. split.
      + intros (zr & s & h & H & Hs & Hh & R). destruct (proj1 (IN (fst zr) h)) as (zr' & H' & Ez & Hh'); [now exists zr|]. exists zr', s, h. tauto.
      + intros (zr & s & h & H & Hs & Hh & R). destruct (proj2 (IN (fst zr) h)) as (zr' & H' & Ez & Hh'); [now exists zr|]. exists zr', s, h. tauto.
  Qed.
End Split.
Print Assumptions C41_split.
