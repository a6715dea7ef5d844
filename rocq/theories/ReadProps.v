(** C71: the items read from files of hits; C72: those read from simulation files *)
From Coq Require Import String Sorted.
From Verif Require Import Base Arrays PeaksModel ConfigModel McModel McSpec McProps XyProps BuffersEvent ReadModel ReadSpec.
Local Open Scope Q_scope.
Notation concat := List.concat.
Notation length := List.length.

Lemma kept_filter {A} (P : A -> Prop) (p : A -> bool) l : (forall x, p x = true <-> P x) -> kept P l (filter p l).
Proof.
  intros H. induction l as [|a l IH]; [constructor|]. cbn. destruct (p a) eqn:E; constructor; try assumption; [now apply H|]. intros C. apply H in C. congruence.
Qed.
Lemma kept_fun {A} (P : A -> Prop) l m m' : kept P l m -> kept P l m' -> m = m'.
Proof. intros H. revert m'. induction H; intros m' H'; inversion H'; subst; try easy; f_equal; auto. Qed.

Lemma over_files_ok {F A} (read : F -> generated A) (P : F -> list A -> Prop) files :
  (forall f, In f files -> exists part, read f = (part, None) /\ P f part) ->
  exists parts, over_files read files = (concat parts, None) /\ Forall2 P files parts.
Proof.
  induction files as [|f fs IH]; intros H; [exists []; split; [reflexivity|constructor]|].
  destruct (H f (or_introl eq_refl)) as (part & E & Hp). destruct IH as (parts & E' & F'); [intros; apply H; now right|].
  exists (part :: parts). cbn. rewrite E, E'. split; [reflexivity|now constructor].
Qed.
Lemma over_files_error {F A} (read : F -> generated A) before f after parts l e :
  over_files read before = (parts, None) -> read f = (l, Some e) -> over_files read (before ++ f :: after) = (parts ++ l, Some e).
Proof.
  revert parts. induction before as [|g before IH]; intros parts Hb Hf; cbn in *; [injection Hb as <-; now rewrite Hf|].
  destruct (read g) as [m [x|]]; [discriminate|]. destruct (over_files read before) as [m' x]. injection Hb as <- ->. rewrite (IH m' eq_refl Hf). now rewrite app_assoc.
Qed.

Lemma partition_by_key {A} (key : A -> Z) keys l : NoDup keys -> (forall x, In x l -> In (key x) keys) ->
  Permutation l (flat_map (fun k => filter (fun x => Z.eqb (key x) k) l) keys).
Proof.
  intros N. revert l. induction N as [|k keys Hk N IH]; intros l H.
  - destruct l as [|x l]; [constructor|]. destruct (H x (or_introl eq_refl)).
  - change (Permutation l (filter (fun x => Z.eqb (key x) k) l ++ flat_map (fun k => filter (fun x => Z.eqb (key x) k) l) keys)). rewrite <- (filter_split_perm (fun x => Z.eqb (key x) k) l) at 1. apply Permutation_app_head.
    transitivity (flat_map (fun k0 => filter (fun x => Z.eqb (key x) k0) (filter (fun x => negb (Z.eqb (key x) k)) l)) keys); [apply IH|match goal with |- Permutation ?a ?b => assert (E : a = b); [|rewrite E; reflexivity] end; rewrite !flat_map_concat_map; f_equal; apply map_ext_in].
    + intros x Hx. apply filter_In in Hx. destruct Hx as [Hx Hn]. destruct (H x Hx) as [->|]; [|assumption]. now rewrite Z.eqb_refl in Hn.
    + intros k' Hk'. rewrite filter_filter. apply filter_ext. intros x. destruct (Z.eqb_spec (key x) k') as [->|]; [|apply andb_false_r]. rewrite andb_true_r. destruct (Z.eqb_spec k' k) as [->|]; [contradiction|reflexivity].
Qed.

Lemma unique_length l n : (forall evs, NoDup evs -> (forall e, In e evs <-> In e l) -> length evs = n) -> length (unique_events l) = n.
Proof. intros H. destruct (unique_from_spec [] l) as [U1 U2]. apply H; [exact U1|]. intros e. unfold unique_events, unique. rewrite U2. cbn. tauto. Qed.

Section Hits.
  Context {H K : Type}.
  Variable h_event : H -> Z.
  Variable k_event : K -> Z.

  Lemma file_items (f : hfile H K) hits kdst run events : complete f hits kdst run events -> same_number k_event kdst events ->
    exists part, hits_and_kdst_from_file h_event k_event f = (part, None) /\ Forall2 (item_of h_event k_event hits kdst run) events part.
  Proof.
    intros (E1 & E2 & E3 & more & E4) S. unfold hits_and_kdst_from_file. rewrite E1, E2, E3, E4. cbn [run_of]. rewrite (unique_length _ _ S), Nat.eqb_refl.
    eexists. split; [reflexivity|]. clear S E3. induction events as [|[ev t] events IH]; [constructor|]. cbn [map]. constructor; [|exact IH].
    unfold item_of. cbn [i_event i_time i_run i_hits i_kdst fst snd]. do 3 (split; [reflexivity|]). split; apply kept_filter; intros x; apply Z.eqb_eq.
  Qed.

  (** one item for each event of each file, in order; files that lack a table are skipped *)
  Theorem C71_one_item_per_event (files : list (hfile H K)) : (forall f, In f files -> well_formed k_event f) ->
    exists parts, hits_and_kdst_from_files h_event k_event files = (concat parts, None) /\ Forall2 (read_of_file h_event k_event) files parts.
  Proof.
    intros W. apply over_files_ok. intros f Hf. destruct (W f Hf) as [L|(hits & kdst & run & events & C & S)].
    - exists []. split; [|now left]. unfold hits_and_kdst_from_file. destruct L as [->|[->|[->|[->| ->]]]]; try reflexivity; destruct (f_hits f); try reflexivity; destruct (f_kdst f); try reflexivity. now destruct (run_of (f_runs f)).
    - destruct (file_items f hits kdst run events C S) as (part & E & F). exists part. split; [assumption|]. right. exists hits, kdst, run, events. auto.
  Qed.

  (** when the events are distinct, and those of the hits are in the table, no hit is lost or repeated *)
  Theorem C71_no_hit_lost hits kdst run events part : NoDup (map fst events) -> (forall h, In h hits -> In (h_event h) (map fst events)) ->
    Forall2 (item_of h_event k_event hits kdst run) events part -> Permutation hits (flat_map i_hits part).
  Proof.
    intros N Hc F. rewrite (partition_by_key h_event (map fst events) hits N Hc) at 1. match goal with |- Permutation ?a ?b => assert (E : a = b); [|rewrite E; reflexivity] end. rewrite !flat_map_concat_map, map_map. f_equal.
    clear N Hc. induction F as [|e it events part (_ & _ & _ & Hk & _) F IH]; [reflexivity|]. cbn [map]. rewrite IH. f_equal. symmetry. eapply kept_fun; [exact Hk|]. apply kept_filter. intros x. apply Z.eqb_eq.
  Qed.

  (** tables with different numbers of events *)
  Theorem C71_numbers_differ before f after hits kdst run events : (forall g, In g before -> well_formed k_event g) -> complete f hits kdst run events ->
    (exists evs, NoDup evs /\ (forall e, In e evs <-> In e (map k_event kdst)) /\ length evs <> length events) ->
    exists parts, hits_and_kdst_from_files h_event k_event (before ++ f :: after) = (concat parts, Some InvalidInputFileStructure) /\ Forall2 (read_of_file h_event k_event) before parts.
  Proof.
    intros W (E1 & E2 & E3 & more & E4) (evs & N & He & Hl). destruct (C71_one_item_per_event before W) as (parts & E & F). exists parts. split; [|assumption].
    unfold hits_and_kdst_from_files in *. rewrite (over_files_error _ _ f after _ [] InvalidInputFileStructure E); [now rewrite app_nil_r|].
    unfold hits_and_kdst_from_file. rewrite E1, E2, E3, E4. cbn [run_of]. destruct (unique_from_spec [] (map k_event kdst)) as [U1 U2].
    assert (L : length (unique_events (map k_event kdst)) = length evs).
    { apply Permutation_length, NoDup_Permutation; [exact U1|assumption|]. intros x. unfold unique_events, unique. rewrite U2, He. cbn. tauto. }
    rewrite L. destruct (Nat.eqb_spec (length events) (length evs)); [congruence|reflexivity].
  Qed.

  (** files of one table: one item for each file that has all it needs *)
  Theorem C71_one_item_per_file (files : list (hfile H K)) :
    exists parts, dst_from_files files = (concat parts, None) /\
      Forall2 (fun f part => match f_hits f, f_runs f, f_events f with
        | Some dst, Some (run :: _), Some events => exists it, part = [it] /\ t_dst it = dst /\ t_run it = run /\ combine (t_events it) (t_times it) = events
        | _, _, _ => part = []
        end) files parts.
  Proof.
    apply over_files_ok. intros f _. unfold dst_from_file. destruct (f_hits f) as [dst|]; [|now exists []]. destruct (f_runs f) as [[|run rs]|]; [now exists []| |now exists []]. cbn [run_of].
    destruct (f_events f) as [events|]; [|now exists []]. eexists. split; [reflexivity|]. eexists. do 3 (split; [reflexivity|]). cbn [t_events t_times].
    induction events as [|[e t] l IH]; [reflexivity|]. cbn. now rewrite IH.
  Qed.
End Hits.
Print Assumptions C71_one_item_per_event.
Print Assumptions C71_no_hit_lost.
Print Assumptions C71_numbers_differ.
Print Assumptions C71_one_item_per_file.

(** ---------- deconvolved hits ---------- *)
Lemma appear_exists (l : list Z) : exists a, appear a l.
Proof.
  induction l as [|x l (a & IH)] using rev_ind; [exists []; constructor|]. destruct (in_dec Z.eq_dec x l); [exists a; now constructor|exists (a ++ [x]); now constructor].
Qed.
Section Deco.
  Context {K : Type}.
  Variable k_event : K -> Z.

  Lemma deco_events hits kdst run table events : (forall ev, In ev events -> In ev (map fst table)) ->
    exists part, dhits_events k_event hits kdst run table events = (part, None) /\ Forall2 (deco_item k_event hits kdst run table) events part.
  Proof.
    induction events as [|ev events IH]; intros Hin; [exists []; split; [reflexivity|constructor]|].
    destruct IH as (part & E & F); [intros; apply Hin; now right|]. cbn [dhits_events].
    assert (Ht : In ev (map fst table)) by (apply Hin; now left).
    destruct (filter (fun '(e, _) => Z.eqb e ev) table) as [|[e t] rest] eqn:Ef.
    - exfalso. apply in_map_iff in Ht. destruct Ht as ([e t] & <- & Ht). assert (In (e, t) []) by (rewrite <- Ef; apply filter_In; split; [assumption|apply Z.eqb_refl]). easy.
    - assert (In (e, t) (filter (fun '(e, _) => Z.eqb e ev) table)) as Hf by (rewrite Ef; now left). apply filter_In in Hf. destruct Hf as [Hf Hev]. apply Z.eqb_eq in Hev. subst e.
      rewrite E. eexists. split; [reflexivity|]. constructor; [|assumption]. unfold deco_item. cbn [x_event x_run x_time x_hits x_kdst].
      do 2 (split; [reflexivity|]). split; [assumption|]. split.
      + eexists. split; [apply (kept_filter _ (fun h => Z.eqb (d_event h) ev)); intros x; apply Z.eqb_eq|]. clear. induction (filter (fun h => Z.eqb (d_event h) ev) hits) as [|h l IH]; [constructor|]. cbn [map]. constructor; [|exact IH]. repeat split.
      + destruct kdst as [k|]; cbn [option_map]; [|exact I]. apply kept_filter. intros x. apply Z.eqb_eq.
  Qed.

  (** one item for each event that has hits, in order of appearance *)
  Theorem C71_deconvolved_hits (files : list (hfile dhit K)) :
    (forall f hits, In f files -> f_hits f = Some hits -> f_runs f = None \/ f_runs f = Some [] \/
        exists events, f_events f = Some events /\ forall h, In h hits -> In (d_event h) (map fst events)) ->
    exists parts, dhits_from_files k_event files = (concat parts, None) /\
      Forall2 (fun f part => match f_hits f, f_runs f with
        | Some hits, Some (run :: _) => exists events evs, f_events f = Some events /\ appear evs (map d_event hits) /\ Forall2 (deco_item k_event hits (f_kdst f) run events) evs part
        | _, _ => part = []
        end) files parts.
  Proof.
    intros W. apply over_files_ok. intros f Hf. unfold dhits_from_file. destruct (f_hits f) as [hits|] eqn:E1; [|now exists []]. destruct (f_runs f) as [[|run rs]|] eqn:E2; [now exists []| |now exists []]. cbn [run_of].
    destruct (W f hits Hf E1) as [C|[C|(events & E3 & Hin)]]; [congruence|congruence|]. rewrite E3.
    destruct (appear_exists (map d_event hits)) as (evs & Ha). replace (unique_events (map d_event hits)) with evs by (symmetry; now apply unique_appear).
    destruct (deco_events hits (f_kdst f) run events evs) as (part & E & F).
    { intros ev Hev. apply (appear_spec _ _ Ha) in Hev. apply in_map_iff in Hev. destruct Hev as (h & <- & Hh). auto. }
    exists part. split; [assumption|]. exists events, evs. auto.
  Qed.
  (** hits of an event that is not in the table of events end the reading *)
  Theorem C71_deconvolved_unlisted f hits run rs events h : f_hits f = Some hits -> f_runs f = Some (run :: rs) -> f_events f = Some events ->
    In h hits -> ~ In (d_event h) (map fst events) -> exists part, dhits_from_files k_event [f] = (part, Some IndexError).
  Proof.
    intros E1 E2 E3 Hh Hn. unfold dhits_from_files. cbn [over_files]. unfold dhits_from_file. rewrite E1, E2, E3. cbn [run_of].
    assert (Hin : In (d_event h) (unique_events (map d_event hits))).
    { destruct (unique_from_spec [] (map d_event hits)) as [_ U2]. unfold unique_events, unique. apply U2. split; [now apply in_map|easy]. }
    assert (G : exists part, dhits_events k_event hits (f_kdst f) run events (unique_events (map d_event hits)) = (part, Some IndexError)).
    { induction (unique_events (map d_event hits)) as [|ev l IH]; [easy|]. cbn [dhits_events]. destruct (filter (fun '(e, _) => Z.eqb e ev) events) as [|[e t] rest] eqn:Ef; [eexists; reflexivity|].
      destruct Hin as [->|Hin].
      - exfalso. apply Hn. assert (In (e, t) (filter (fun '(e, _) => Z.eqb e (d_event h)) events)) as Hf by (rewrite Ef; now left). apply filter_In in Hf. destruct Hf as [Hf Hev]. apply Z.eqb_eq in Hev. subst e. now apply (in_map fst) in Hf.
      - destruct (IH Hin) as (part & ->). eexists. reflexivity. }
    destruct G as (part & ->). eexists. reflexivity.
  Qed.
End Deco.
Print Assumptions C71_deconvolved_hits.
Print Assumptions C71_deconvolved_unlisted.

(** ---------- examples and counterexamples ---------- *)
Definition xf (hits : list (Z * nat)) (kdst : list (Z * nat)) (events : list (Z * Q)) : hfile (Z * nat) (Z * nat) :=
  {| f_hits := Some hits; f_kdst := Some kdst; f_runs := Some [5%Z]; f_events := Some events |}.
Definition xf1 := xf [(1%Z, 10%nat); (2%Z, 20%nat); (1%Z, 11%nat)] [(1%Z, 7%nat); (2%Z, 8%nat); (1%Z, 9%nat)] [(2%Z, 20); (1%Z, 10)].
Definition xf0 : hfile (Z * nat) (Z * nat) := {| f_hits := Some []; f_kdst := None; f_runs := Some [5%Z]; f_events := Some [] |}.
Example C71_example : (forall f, In f [xf1; xf0] -> well_formed fst f) /\
  map i_hits (fst (hits_and_kdst_from_files fst fst [xf1; xf0])) = [[(2%Z, 20%nat)]; [(1%Z, 10%nat); (1%Z, 11%nat)]].
Proof.
  split; [|reflexivity]. intros f [<-|[<-|[]]].
  - right. eexists _, _, _, _. split; [repeat split; eexists; reflexivity|]. intros evs N He. cbn in He.
    transitivity (length [1%Z; 2%Z]); [|reflexivity]. apply Permutation_length, NoDup_Permutation; [assumption|repeat constructor; cbn; intuition discriminate|]. intros x. rewrite He. cbn. tauto.
  - left. right. left. reflexivity.
Qed.

(** The numbers of events are compared, not the events: here the pointlike table is that of another event, and the item has none of its rows. *)
Theorem C71_other_events_refuted : exists f : hfile (Z * nat) (Z * nat), exists it, hits_and_kdst_from_files fst fst [f] = ([it], None) /\ f_kdst f <> Some [] /\ i_kdst it = [].
Proof. exists (xf [(1%Z, 10%nat)] [(2%Z, 7%nat)] [(1%Z, 10)]). eexists. split; [reflexivity|]. split; [discriminate|reflexivity]. Qed.
Print Assumptions C71_other_events_refuted.
(** the hits of an event that is not in the table of events are in no item *)
Theorem C71_unlisted_refuted : exists f : hfile (Z * nat) (Z * nat), exists h it, f_hits f = Some [h] /\ hits_and_kdst_from_files fst fst [f] = ([it], None) /\ i_hits it = [].
Proof. exists (xf [(3%Z, 10%nat)] [(1%Z, 7%nat)] [(1%Z, 10)]). eexists _, _. split; [reflexivity|]. split; reflexivity. Qed.
Print Assumptions C71_unlisted_refuted.
Example C71_deco_example : let f := {| f_hits := Some [ {| d_event := 4; d_npeak := 0; d_pos := (1, 2, 3); d_Q := 7; d_E := 9; d_more := None |} ]; f_kdst := @None (list (Z * nat)); f_runs := Some [5%Z]; f_events := Some [(3%Z, 1); (4%Z, 2)] |} in
  map x_time (fst (dhits_from_files fst [f])) = [2] /\ map (fun it => map d_Q (x_hits it)) (fst (dhits_from_files fst [f])) = [[9]].
Proof. split; reflexivity. Qed.
