(** C122: what is read by parts and what is read whole *)
From Coq Require Import List ZArith String Bool Lia Permutation.
From Verif Require Import Base PmapioModel PmapioProps LoadModel LoadSpec.
Import ListNotations.
Local Open Scope nat_scope.

Lemma picked_filter {A} (P : A -> Prop) (p : A -> bool) l : (forall x, p x = true <-> P x) -> Picked P l (filter p l).
Proof. intros H. induction l as [|x l IH]; [constructor|]. cbn. destruct (p x) eqn:E; constructor; auto; [now apply H|intros K; apply H in K; congruence]. Qed.
Lemma picked_iff {A} (P : A -> Prop) (p : A -> bool) l m : (forall x, p x = true <-> P x) -> Picked P l m -> m = filter p l.
Proof. intros H. induction 1 as [|x l m Px _ IH|x l m Px _ IH]; [reflexivity| |]; cbn; [rewrite (proj2 (H x) Px); now f_equal|]. destruct (p x) eqn:E; [exfalso; apply Px, H, E|exact IH]. Qed.
Lemma isin_spec l z : isin l z = true <-> In z l.
Proof. unfold isin. rewrite existsb_exists. split; [intros (x & H & E); apply Z.eqb_eq in E; now subst|intros H; exists z; split; [exact H|apply Z.eqb_refl]]. Qed.

Lemma window_slice {A} skip n (l : list A) : window skip n l (slice skip (skip + match n with Some n => n | None => List.length l end) l).
Proof.
  unfold window, slice. replace (skip + _ - skip) with (match n with Some n => n | None => List.length l end) by lia.
  exists (firstn skip l), (skipn (match n with Some n => n | None => List.length l end) (skipn skip l)). rewrite firstn_skipn, firstn_skipn, firstn_length. split; [reflexivity|]. split; [reflexivity|].
  destruct n as [n|]; [now rewrite firstn_length, skipn_length|]. apply skipn_all2. rewrite skipn_length. lia.
Qed.
Lemma read_event_spec {R} (event_of : R -> Z) t ev : of_event event_of ev t (read_event event_of t ev).
Proof. destruct t as [t|]; cbn; [|exact I]. apply picked_filter. intros x. apply Z.eqb_eq. Qed.

(** The tables given event by event are those of the window of Run/events, each with the rows of its event in the order of the file *)
Theorem C122_by_event f all evs skip n : load_pmaps_as_df_eager f = Ok all -> pm_events f = Some evs ->
  exists w items, window skip n evs w /\ load_pmaps_as_df_lazy f skip n = Ok items /\ Forall2 (event_tables f) w items /\
    (pm_s1 f, pm_s2 f, pm_si f, pm_s1pmt f, pm_s2pmt f) = (let '(s1, s2, si, p1, p2) := all in (Some s1, Some s2, Some si, p1, p2)).
Proof.
  intros H E. unfold load_pmaps_as_df_eager in H. destruct (check f) as [[]|] eqn:C; [|discriminate]. cbn [rbind] in H.
  destruct (pm_s1 f) as [s1|] eqn:E1; [|discriminate]. cbn [rbind node] in H. destruct (pm_s2 f) as [s2|] eqn:E2; [|discriminate]. cbn [rbind node] in H. destruct (pm_si f) as [si|] eqn:E3; [|discriminate]. cbn [rbind node] in H. injection H as <-.
  eexists _, _. split; [apply window_slice|]. split; [unfold load_pmaps_as_df_lazy; rewrite C, E; reflexivity|]. split; [|reflexivity].
  match goal with |- Forall2 _ ?w _ => generalize w end. intros w. induction w as [|ev w IH]; [constructor|]. cbn [map]. constructor; [|exact IH]. repeat split; apply read_event_spec.
Qed.
Print Assumptions C122_by_event.

Lemma perm_events {R} (event_of : R -> Z) (evs : list Z) (t : list R) : NoDup evs -> (forall r, In r t -> In (event_of r) evs) ->
  Permutation (flat_map (fun ev => filter (fun r => (event_of r =? ev)%Z) t) evs) t.
Proof.
  revert t. induction evs as [|ev evs IH]; intros t N H; [destruct t as [|r t]; [constructor|destruct (H r (or_introl eq_refl))]|]. inversion N as [|? ? N1 N2]; subst. cbn [flat_map].
  assert (S : Permutation t (filter (fun r => (event_of r =? ev)%Z) t ++ filter (fun r => negb (event_of r =? ev)%Z) t)).
  { clear. induction t as [|r t IH]; [constructor|]. cbn. destruct (event_of r =? ev)%Z; cbn; [now constructor|]. now apply Permutation_cons_app. }
  rewrite S at 2. apply Permutation_app_head. rewrite <- (IH (filter (fun r => negb (event_of r =? ev)%Z) t) N2).
  - assert (Q : forall e, In e evs -> filter (fun r => (event_of r =? e)%Z) t = filter (fun r => (event_of r =? e)%Z) (filter (fun r => negb (event_of r =? ev)%Z) t)).
    { intros e He. assert (Ne : e <> ev) by (intros ->; contradiction). clear -Ne. induction t as [|r t IH]; [reflexivity|]. cbn. destruct (Z.eqb_spec (event_of r) ev) as [E|E]; cbn; [|now rewrite IH]. rewrite E. destruct (Z.eqb_spec ev e); [congruence|exact IH]. }
    clear -Q. induction evs as [|e evs IH]; [constructor|]. cbn [flat_map]. rewrite (Q e) by now left. apply Permutation_app_head, IH. intros x Hx. apply Q. now right.
  - intros r Hr. apply filter_In in Hr. destruct Hr as [Hr E]. destruct (H r Hr) as [->|K]; [rewrite Z.eqb_refl in E; discriminate|exact K].
Qed.
Lemma flat_map_map {A B C} (f : A -> B) (g : B -> list C) l : flat_map g (map f l) = flat_map (fun x => g (f x)) l.
Proof. induction l as [|a l IH]; [reflexivity|]. cbn. now rewrite IH. Qed.
Lemma slice_all {A} (l : list A) : slice 0 (List.length l) l = l.
Proof. unfold slice. cbn [skipn]. now rewrite Nat.sub_0_r, firstn_all. Qed.

(** With distinct numbers of events every row of S1 and S2 is given exactly once; of the tables of sensors, every row of an event of Run/events *)
Theorem C122_once f s1 s2 si p1 p2 evs items : load_pmaps_as_df_eager f = Ok (s1, s2, si, p1, p2) -> pm_events f = Some evs -> NoDup evs -> load_pmaps_as_df_lazy f 0 None = Ok items ->
  Permutation (flat_map it_s1 items) s1 /\ Permutation (flat_map it_s2 items) s2 /\
  ((forall r, In r si -> In (r_event r) evs) -> Permutation (flat_map it_si items) si) /\
  (forall t, p1 = Some t -> (forall r, In r t -> In (r_event r) evs) -> Permutation (flat_map it_s1pmt items) t) /\
  (forall t, p2 = Some t -> (forall r, In r t -> In (r_event r) evs) -> Permutation (flat_map it_s2pmt items) t).
Proof.
  intros H E N L. unfold load_pmaps_as_df_eager in H. destruct (check f) as [[]|] eqn:C; [|discriminate]. cbn [rbind] in H.
  destruct (pm_s1 f) as [s1'|] eqn:E1; [|discriminate]. cbn [rbind node] in H. destruct (pm_s2 f) as [s2'|] eqn:E2; [|discriminate]. cbn [rbind node] in H. destruct (pm_si f) as [si'|] eqn:E3; [|discriminate]. cbn [rbind node] in H.
  injection H as <- <- <- Ep1 Ep2. unfold load_pmaps_as_df_lazy in L. rewrite C, E in L. cbn [rbind node] in L. injection L as <-. rewrite slice_all, !flat_map_map, E1, E2, E3, Ep1, Ep2. cbn [it_s1 it_s2 it_si it_s1pmt it_s2pmt read_event rows_of].
  unfold check in C. rewrite E, E1, E2 in C. cbn [rbind node] in C. unfold check_file_integrity in C. match type of C with context [if ?b then _ else _] => destruct b eqn:B; [|discriminate] end. apply andb_true_iff in B. destruct B as [_ B]. unfold subsetb, table_events in B. cbn [t_s1 t_s2] in B. rewrite forallb_forall in B.
  assert (B' : forall ev, In ev (map s_event s1' ++ map s_event s2') -> In ev evs). { intros ev K. specialize (B ev K). apply existsb_exists in B. destruct B as (x & K1 & K2). apply Z.eqb_eq in K2. now subst. }
  split; [apply (perm_events s_event); [exact N|]; intros r Hr; apply B', in_or_app; left; now apply in_map|].
  split; [apply (perm_events s_event); [exact N|]; intros r Hr; apply B', in_or_app; right; now apply in_map|].
  split; [intros K; now apply (perm_events r_event)|]. split; intros t -> K; now apply (perm_events r_event).
Qed.
Print Assumptions C122_once.

(** The two readers refuse the same files with the same exception, but for those that lack only the table of SiPMs: that table is then missing in every value *)
Theorem C122_refused f skip n e : load_pmaps_as_df_eager f = Err e ->
  load_pmaps_as_df_lazy f skip n = Err e \/
  (e = NoSuchNodeError /\ pm_si f = None /\ exists items, load_pmaps_as_df_lazy f skip n = Ok items /\ forall it, In it items -> let '(_, _, si, _, _) := it in si = None).
Proof.
  intros H. unfold load_pmaps_as_df_eager in H. unfold load_pmaps_as_df_lazy. destruct (check f) as [[]|e'] eqn:C; cbn [rbind] in *; [|left; injection H as <-; reflexivity].
  unfold check in C. destruct (pm_events f) as [evs|]; [|discriminate]. destruct (pm_s1 f) as [s1|]; [|discriminate]. destruct (pm_s2 f) as [s2|]; [|discriminate]. cbn [rbind node] in *. destruct (pm_si f); [discriminate|].
  cbn [node rbind] in H. injection H as <-. right. split; [reflexivity|]. split; [reflexivity|]. eexists. split; [reflexivity|]. intros it K. apply in_map_iff in K. destruct K as (ev & <- & _). reflexivity.
Qed.
Theorem C122_refused_both f skip n e : load_pmaps_as_df_lazy f skip n = Err e -> load_pmaps_as_df_eager f = Err e.
Proof.
  unfold load_pmaps_as_df_eager, load_pmaps_as_df_lazy. destruct (check f) as [[]|e'] eqn:C; cbn [rbind]; [|intros H; injection H as <-; reflexivity]. unfold check in C. destruct (pm_events f) as [evs|]; discriminate.
Qed.
Print Assumptions C122_refused.
Print Assumptions C122_refused_both.

(** ---- tables ---- *)
Section Dst.
Context {R : Type} (event_of : R -> Z).
Notation load_dst := (load_dst event_of). Notation load_dsts := (load_dsts event_of).

Lemma has_event_spec (d : dst R) : has_event d = true <-> In "event"%string (columns d).
Proof. unfold has_event. rewrite existsb_exists. split; [intros (x & H & E); apply String.eqb_eq in E; now subst|intros H; exists "event"%string; split; [exact H|apply String.eqb_refl]]. Qed.
Lemma same_columns_spec l m : same_columns l m = true <-> l = m.
Proof. revert m. induction l as [|a l IH]; intros [|b m]; cbn; try easy. rewrite andb_true_iff, String.eqb_eq, IH. split; [intros [-> ->]; reflexivity|intros E; injection E; auto]. Qed.

(** Reading with a list of events gives the rows of those events; a table without that column is refused, whatever the errors that are ignored *)
Theorem C122_dst f l ignore d : load_dst f None ignore = Ok (Some d) ->
  (In "event"%string (columns d) -> exists part, load_dst f (Some l) ignore = Ok (Some part) /\ columns part = columns d /\ Picked (fun r => In (event_of r) l) (content d) (content part) /\ dst_event_id_selection event_of d l = part) /\
  (~ In "event"%string (columns d) -> load_dst f (Some l) ignore = Err KeyError /\ dst_event_id_selection event_of d l = d).
Proof.
  unfold LoadModel.load_dst. destruct f as [| |[t|]]; cbn [read_dst]; try (destruct ignore; discriminate). intros H. injection H as ->. unfold dst_event_id_selection. split; intros K.
  - rewrite (proj2 (has_event_spec d) K). eexists. split; [reflexivity|]. split; [reflexivity|]. split; [|reflexivity]. cbn. apply picked_filter. intros r. apply isin_spec.
  - destruct (has_event d) eqn:E; [apply has_event_spec in E; contradiction|]. split; [now destruct ignore|reflexivity].
Qed.

Lemma load_list files ds ignore : Readable files ds -> (ignore = true \/ forall f, In f files -> exists d, f = File (Some d)) ->
  exists l, rmap (fun f => load_dst f None ignore) files = Ok l /\ somes l = ds.
Proof.
  induction 1 as [|d fs ds _ IH|f fs ds N _ IH]; intros K; [now exists []| |].
  - destruct IH as (l & E & S); [destruct K as [K|K]; [now left|right; intros f Hf; apply K; now right]|]. exists (Some d :: l). cbn [rmap]. unfold LoadModel.load_dst at 1. cbn [read_dst rbind]. rewrite E. cbn [rbind]. split; [reflexivity|]. change (somes (Some d :: l)) with (d :: somes l). now rewrite S.
  - destruct K as [->|K]; [|destruct (K f (or_introl eq_refl)) as (d & ->); destruct (N d eq_refl)]. destruct IH as (l & E & S); [now left|]. exists (None :: l). cbn [rmap].
    assert (LoadModel.load_dst event_of f None true = Ok None) as -> by (unfold LoadModel.load_dst; destruct f as [| |[d|]]; try reflexivity; destruct (N d eq_refl)). cbn [rbind]. rewrite E. cbn [rbind]. split; [reflexivity|]. exact S.
Qed.
Lemma concat_ok (l : list (option (dst R))) d ds : somes l = d :: ds -> (forall x, In x ds -> columns x = columns d) -> pd_concat l = Ok {| columns := columns d; content := flat_map content (d :: ds) |}.
Proof. intros E H. unfold pd_concat. rewrite E. assert (forallb (fun x => same_columns (columns d) (columns x)) ds = true) as -> by (apply forallb_forall; intros x K; apply same_columns_spec; symmetry; auto). reflexivity. Qed.

(** The rows of several files are those of each file, one after the other; when errors are ignored, those of the files that can be read, and it is an error that none can *)
Theorem C122_files files ds ignore : Readable files ds -> (ignore = true \/ forall f, In f files -> exists d, f = File (Some d)) ->
  match ds with
  | [] => load_dsts files None ignore = Err ValueError
  | d :: _ => (forall x, In x ds -> columns x = columns d) -> load_dsts files None ignore = Ok {| columns := columns d; content := flat_map content ds |}
  end.
Proof.
  intros H K. destruct (load_list files ds ignore H K) as (l & E & S). unfold LoadModel.load_dsts. rewrite E. cbn [rbind]. destruct ds as [|d ds].
  - unfold pd_concat. now rewrite S.
  - intros C. apply concat_ok; [exact S|]. intros x Hx. apply C. now right.
Qed.
(** otherwise the first file that cannot be read stops the reading with its own exception *)
Theorem C122_stops before f after : (forall g, In g before -> exists d, g = File (Some d)) -> (forall d, f <> File (Some d)) ->
  load_dsts (before ++ f :: after) None false = Err (match f with Missing => IOError | Corrupted => HDF5ExtError | File _ => NoSuchNodeError end).
Proof.
  intros H N. unfold LoadModel.load_dsts. enough (E : rmap (fun g => load_dst g None false) (before ++ f :: after) = Err (match f with Missing => IOError | Corrupted => HDF5ExtError | File _ => NoSuchNodeError end)) by now rewrite E.
  induction before as [|g before IH]; cbn [app rmap].
  - unfold LoadModel.load_dst at 1. destruct f as [| |[d|]]; try reflexivity. destruct (N d eq_refl).
  - destruct (H g (or_introl eq_refl)) as (d & ->). unfold LoadModel.load_dst at 1. cbn [read_dst rbind]. rewrite IH by (intros; apply H; now right). reflexivity.
Qed.

(** Selecting while reading several files is selecting in what they have together *)
Theorem C122_selection files l ignore d : load_dsts files None ignore = Ok d -> In "event"%string (columns d) ->
  exists part, load_dsts files (Some l) ignore = Ok part /\ columns part = columns d /\ Picked (fun r => In (event_of r) l) (content d) (content part) /\ dst_event_id_selection event_of d l = part.
Proof.
  intros H C. unfold LoadModel.load_dsts in *. destruct (rmap _ files) as [ts|] eqn:E; [|discriminate]. cbn [rbind] in H.
  assert (Hp := H). unfold pd_concat in H. destruct (somes ts) as [|d0 ds0] eqn:S; [discriminate|]. destruct (forallb _ ds0) eqn:F; [|discriminate]. injection H as <-. cbn [columns content] in *.
  set (sel := fun x : dst R => {| columns := columns x; content := filter (fun r => isin l (event_of r)) (content x) |}).
  assert (G : forall x, In x (somes ts) -> columns x = columns d0). { rewrite S. intros x [<-|K]; [reflexivity|]. rewrite forallb_forall in F. symmetry. now apply same_columns_spec, F. }
  assert (E' : rmap (fun f => LoadModel.load_dst event_of f (Some l) ignore) files = Ok (map (option_map sel) ts)).
  { clear S Hp F. revert ts E G. induction files as [|f files IH]; intros ts E G; cbn [rmap] in *; [injection E as <-; reflexivity|]. destruct (LoadModel.load_dst event_of f None ignore) as [t|] eqn:Ef; [|discriminate]. cbn [rbind] in E. destruct (rmap (fun f0 => LoadModel.load_dst event_of f0 None ignore) files) as [ts'|]; [|discriminate]. cbn [rbind] in E. injection E as <-.
    rewrite (IH ts' eq_refl) by (intros x K; apply G; cbn; apply in_or_app; now right). cbn [map].
    assert (LoadModel.load_dst event_of f (Some l) ignore = Ok (option_map sel t)) as ->; [|reflexivity]. unfold LoadModel.load_dst in *. destruct f as [| |[x|]]; cbn [read_dst] in *; try (destruct ignore; [|discriminate]; injection Ef as <-; reflexivity).
    injection Ef as <-. assert (has_event x = true) as ->; [|reflexivity]. apply has_event_spec. rewrite (G x) by (cbn; now left). exact C. }
  rewrite E'. cbn [rbind]. assert (S' : somes (map (option_map sel) ts) = map sel (d0 :: ds0)) by (rewrite <- S; clear; induction ts as [|[t|] ts IH]; cbn; [reflexivity|now f_equal|exact IH]).
  assert (Fl : flat_map content (map sel (d0 :: ds0)) = filter (fun r => isin l (event_of r)) (flat_map content (d0 :: ds0))).
  { clear. induction (d0 :: ds0) as [|x xs IH]; [reflexivity|]. cbn [flat_map map]. rewrite IH, filter_app. reflexivity. }
  eexists. split; [cbn [map] in S'; apply (concat_ok _ (sel d0) (map sel ds0) S'); intros x K; apply in_map_iff in K; destruct K as (y & <- & K); apply (G y); rewrite S; now right|].
  split; [reflexivity|]. cbn [columns content]. change (sel d0 :: map sel ds0) with (map sel (d0 :: ds0)). rewrite Fl. split; [apply picked_filter; intros r; apply isin_spec|].
  unfold dst_event_id_selection. match goal with |- context [has_event ?x] => assert (has_event x = true) as -> by (apply has_event_spec; exact C) end. reflexivity.
Qed.
End Dst.
Print Assumptions C122_dst.
Print Assumptions C122_files.
Print Assumptions C122_stops.
Print Assumptions C122_selection.

(** ---- dictionaries of PMaps ---- *)
Theorem C122_pmaps {A} (data : list (Z * A)) ids : Picked (fun x => In (fst x) ids) data (pmap_event_id_selection data ids).
Proof. apply picked_filter. intros x. apply isin_spec. Qed.
Print Assumptions C122_pmaps.

(** ---- voxels ---- *)
Lemma write_all_rows table l : write_all table l = table ++ flat_map (fun e => map (fun v => (fst e, v)) (snd e)) l.
Proof. revert table. induction l as [|[ev vs] l IH]; intros table; cbn; [now rewrite app_nil_r|]. unfold write_all in IH. rewrite IH. unfold write_voxels. now rewrite <- app_assoc. Qed.
Lemma append_fresh d ev v : ~ In ev (map fst d) -> append_to d ev v = d ++ [(ev, [v])].
Proof. induction d as [|[e l] d IH]; intros N; [reflexivity|]. cbn in *. destruct (Z.eqb_spec e ev) as [->|_]; [destruct N; now left|]. rewrite IH; [reflexivity|]. intros K. apply N. now right. Qed.
Lemma append_last d ev l v : ~ In ev (map fst d) -> append_to (d ++ [(ev, l)]) ev v = d ++ [(ev, l ++ [v])].
Proof. induction d as [|[e m] d IH]; intros N; cbn in *; [now rewrite Z.eqb_refl|]. destruct (Z.eqb_spec e ev) as [->|_]; [destruct N; now left|]. rewrite IH; [reflexivity|]. intros K. apply N. now right. Qed.
Lemma load_more d ev l vs : ~ In ev (map fst d) -> fold_left (fun d r => append_to d (fst r) (snd r)) (map (fun v => (ev, v)) vs) (d ++ [(ev, l)]) = d ++ [(ev, l ++ vs)].
Proof. intros N. revert l. induction vs as [|v vs IH]; intros l; cbn; [now rewrite app_nil_r|]. rewrite (append_last d ev l v N), IH, <- app_assoc. reflexivity. Qed.
(** The voxels written event by event, with distinct numbers, are read back: the events with voxels, in order, each with its own *)
Theorem C122_voxels l : NoDup (map fst l) -> Picked (fun e => snd e <> []) l (load_voxels (write_all [] l)).
Proof.
  intros N. rewrite write_all_rows. cbn [app]. unfold load_voxels.
  assert (G : forall d, NoDup (map fst (d ++ l)) -> fold_left (fun d r => append_to d (fst r) (snd r)) (flat_map (fun e => map (fun v => (fst e, v)) (snd e)) l) d = d ++ filter (fun e => match snd e with [] => false | _ => true end) l).
  { clear N. induction l as [|[ev vs] l IH]; intros d N; cbn [flat_map filter snd fst]; [now rewrite app_nil_r|]. rewrite fold_left_app. rewrite map_app in N. cbn in N.
    assert (Nd : ~ In ev (map fst d)) by (apply NoDup_remove_2 in N; intros K; apply N, in_or_app; now left).
    destruct vs as [|v vs]; cbn [map fold_left].
    - apply IH. apply NoDup_remove_1 in N. now rewrite map_app.
    - cbn [fst snd]. rewrite (append_fresh d ev v Nd), (load_more d ev [v] vs Nd), IH; [now rewrite <- app_assoc|]. rewrite <- app_assoc, map_app. exact N. }
  rewrite (G [] N). cbn. apply picked_filter. intros [e [|v vs]]; cbn; split; try easy.
Qed.
Print Assumptions C122_voxels.
(** In any table each event is read once and has exactly its voxels, in order *)
Theorem C122_voxels_table t : let d := load_voxels t in NoDup (map fst d) /\ (forall ev vs, In (ev, vs) d -> vs <> [] /\ vs = map snd (filter (fun r => Z.eqb (fst r) ev) t)) /\ (forall ev v, In (ev, v) t -> In ev (map fst d)).
Proof.
  cbn zeta. unfold load_voxels. induction t as [|[ev v] t IH] using rev_ind; [split; [constructor|]; split; [intros ev vs []|intros ev v []]|].
  rewrite fold_left_app. cbn [fold_left fst snd]. set (d := fold_left _ t []) in *. destruct IH as (N & H & M).
  assert (K : forall d, NoDup (map fst d) ->
     map fst (append_to d ev v) = (if in_dec Z.eq_dec ev (map fst d) then map fst d else map fst d ++ [ev]) /\
     forall e vs, In (e, vs) (append_to d ev v) -> (e <> ev /\ In (e, vs) d) \/ (e = ev /\ ((~ In ev (map fst d) /\ vs = [v]) \/ exists ws, In (ev, ws) d /\ vs = ws ++ [v]))).
  { clear. induction d as [|[e l] d IH]; intros N; [split; [reflexivity|]; intros e vs [E|[]]; injection E as <- <-; right; split; [reflexivity|]; left; split; [intros []|reflexivity]|]. inversion N as [|? ? N1 N2]; subst. cbn [append_to map fst].
    destruct (Z.eqb_spec e ev) as [->|Ne].
    - destruct (in_dec Z.eq_dec ev (ev :: map fst d)) as [_|X]; [|destruct X; now left]. split; [reflexivity|]. intros e vs [E|K].
      + injection E as <- <-. right. split; [reflexivity|]. right. exists l. split; [now left|reflexivity].
      + left. split; [intros ->; apply N1, (in_map fst _ (ev, vs)), K|now right].
    - destruct (IH N2) as [I1 I2]. split.
      + cbn [map fst]. rewrite I1. destruct (in_dec Z.eq_dec ev (map fst d)) as [X|X], (in_dec Z.eq_dec ev (e :: map fst d)) as [Y|Y]; try reflexivity; [destruct Y; now right|destruct Y as [Y|Y]; [congruence|contradiction]].
      + intros e' vs [E|K]; [injection E as <- <-; left; split; [exact Ne|now left]|]. destruct (I2 e' vs K) as [[A B]|[-> [[A ->]|(ws & A & ->)]]]; [left; split; [exact A|now right]|right; split; [reflexivity|left; split; [intros [X|X]; [congruence|contradiction]|reflexivity]]|right; split; [reflexivity|right; exists ws; split; [now right|reflexivity]]]. }
  destruct (K d N) as [K1 K2]. split; [rewrite K1; destruct (in_dec Z.eq_dec ev (map fst d)) as [X|X]; [exact N|]; apply (Permutation_NoDup (Permutation_cons_append _ _)); now constructor|]. split.
  - intros e vs Hin. rewrite filter_app, map_app. cbn [filter fst]. destruct (K2 e vs Hin) as [[A B]|[-> [[A ->]|(ws & A & ->)]]].
    + destruct (Z.eqb_spec ev e); [congruence|]. cbn. rewrite app_nil_r. now apply H.
    + rewrite Z.eqb_refl. cbn. split; [discriminate|]. assert (filter (fun r => Z.eqb (fst r) ev) t = []) as ->; [|reflexivity]. clear -A M. assert (M' : forall v, ~ In (ev, v) t) by (intros w X; apply A, (M ev w X)). clear M A. induction t as [|[e w] t IH]; [reflexivity|]. cbn. destruct (Z.eqb_spec e ev) as [->|_]; [destruct (M' w); now left|]. apply IH. intros x X. apply (M' x). now right.
    + rewrite Z.eqb_refl. cbn. destruct (H ev ws A) as [_ E]. rewrite <- E. split; [now destruct ws|reflexivity].
  - intros e w Hin. rewrite K1. apply in_app_or in Hin. destruct (in_dec Z.eq_dec ev (map fst d)) as [X|X]; destruct Hin as [Hin|[E|[]]]; try (injection E as <- <-); [exact (M e w Hin)|exact X|apply in_or_app; left; exact (M e w Hin)|apply in_or_app; right; now left].
Qed.
Print Assumptions C122_voxels_table.

(** ---- histograms ---- *)
Lemma cut_nth {A} k n (l : list A) s b : s < k -> b < n -> match nth_error (cut_in k n l) s with Some r => nth_error r b = nth_error l (s * n + b) | None => False end.
Proof.
  revert l s. induction k as [|k IH]; intros l s Hs Hb; [lia|]. destruct s as [|s]; cbn [cut_in nth_error].
  - cbn. assert (F : forall m (x : list A) i, i < m -> nth_error (firstn m x) i = nth_error x i) by (intros m; induction m as [|m IHm]; intros x i Hi; [lia|]; destruct x; [now destruct i|]; destruct i; [reflexivity|]; cbn; apply IHm; lia). now apply F.
  - specialize (IH (skipn n l) s ltac:(lia) Hb). destruct (nth_error (cut_in k n (skipn n l)) s) as [r|]; [|exact IH]. rewrite IH. assert (F : forall m (x : list A) i, nth_error (skipn m x) i = nth_error x (m + i)) by (intros m; induction m as [|m IHm]; intros x i; [reflexivity|]; destruct x; [now destruct i|]; cbn; apply IHm). rewrite F. f_equal. cbn. lia.
Qed.
Lemma cut_length {A} k n (l : list A) : List.length (cut_in k n l) = k.
Proof. revert l. induction k as [|k IH]; intros l; [reflexivity|]. cbn. now rewrite IH. Qed.
(** Every histogram written is an entry of the node, bin by bin; the first one of another size raises ValueError and the ones before stay *)
Theorem C122_histograms n_sensors n_bins hs :
  exists good rest entries e, hs = good ++ rest /\ write_hists n_sensors n_bins [] hs = (entries, e) /\ Forall2 (written n_sensors n_bins) good entries /\
    (forall h, In h good -> List.length h = n_sensors * n_bins) /\
    match rest with [] => e = None | h :: _ => e = Some ValueError /\ List.length h <> n_sensors * n_bins end.
Proof.
  assert (G : forall stored, exists good rest entries e, hs = good ++ rest /\ write_hists n_sensors n_bins stored hs = (stored ++ entries, e) /\ Forall2 (written n_sensors n_bins) good entries /\ (forall h, In h good -> List.length h = n_sensors * n_bins) /\ match rest with [] => e = None | h :: _ => e = Some ValueError /\ List.length h <> n_sensors * n_bins end).
  { induction hs as [|h hs IH]; intros stored; [exists [], [], [], None; repeat split; [now rewrite app_nil_r|constructor|intros h []]|]. cbn [write_hists]. unfold write_hist. destruct (Nat.eqb_spec (List.length h) (n_sensors * n_bins)) as [E|E].
    - destruct (IH (stored ++ [cut_in n_sensors n_bins h])) as (good & rest & entries & e & -> & W & F & L & Re). exists (h :: good), rest, (cut_in n_sensors n_bins h :: entries), e. split; [reflexivity|]. split; [rewrite W, <- app_assoc; reflexivity|]. split; [constructor; [|exact F]|split; [intros x [<-|K]; auto|exact Re]].
      split; [apply cut_length|]. intros s b Hs Hb. pose proof (cut_nth n_sensors n_bins h s b Hs Hb) as C. destruct (nth_error _ s) as [r|]; [|destruct C]. eauto.
    - exists [], (h :: hs), [], (Some ValueError). repeat split; [now rewrite app_nil_r|constructor|intros x []|exact E]. }
  destruct (G []) as (good & rest & entries & e & H). exists good, rest, entries, e. exact H.
Qed.
Print Assumptions C122_histograms.

(** ---- examples ---- *)
Definition ex_sum ev := {| s_event := ev; s_peak := 0; s_time := 1; s_bwidth := 1; s_ene := 2 |}.
Definition ex_sens ev id := {| r_event := ev; r_peak := 0; r_sensor := id; r_ene := 2 |}.
Definition ex_pm := {| pm_events := Some [4; 7; 5]%Z; pm_s1 := Some [ex_sum 4; ex_sum 7]; pm_s2 := Some [ex_sum 7; ex_sum 5; ex_sum 7]; pm_si := Some [ex_sens 7 1000; ex_sens 5 1001]; pm_s1pmt := None; pm_s2pmt := Some [ex_sens 5 3] |}.
Example C122_pm_ex : load_pmaps_as_df_eager ex_pm = Ok ([ex_sum 4; ex_sum 7], [ex_sum 7; ex_sum 5; ex_sum 7], [ex_sens 7 1000; ex_sens 5 1001], None, Some [ex_sens 5 3]) /\
  load_pmaps_as_df_lazy ex_pm 1 (Some 1) = Ok [(Some [ex_sum 7], Some [ex_sum 7; ex_sum 7], Some [ex_sens 7 1000], None, Some [])].
Proof. split; reflexivity. Qed.
Definition ex_dst l : h5file (Z * nat) := File (Some {| columns := ["event"; "n"]%string; content := l |}).
Example C122_dst_ex : load_dsts fst [ex_dst [(1%Z, 1); (2%Z, 2)]; Missing; ex_dst [(2%Z, 3); (3%Z, 4)]; File None] (Some [2; 9]%Z) true = Ok {| columns := ["event"; "n"]%string; content := [(2%Z, 2); (2%Z, 3)] |}.
Proof. reflexivity. Qed.
Definition ex_v (n : nat) : voxel := (inject_Z (Z.of_nat n), 0, 0, 1, (1, 1, 1))%Q.
Example C122_voxels_ex : load_voxels (write_all [] [(3%Z, [ex_v 1; ex_v 2]); (4%Z, []); (1%Z, [ex_v 3])]) = [(3%Z, [ex_v 1; ex_v 2]); (1%Z, [ex_v 3])].
Proof. reflexivity. Qed.
Example C122_hist_ex : write_hists 2 2 [] [[1; 2; 3; 4]; [5; 6; 7; 8]; [9]]%Z = ([[[1; 2]; [3; 4]]; [[5; 6]; [7; 8]]]%Z, Some ValueError).
Proof. reflexivity. Qed.
