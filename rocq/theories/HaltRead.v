(** C121: what the next city reads in a file that an interrupted run has left *)
From Coq Require Import String Permutation.
From Verif Require Import Base ConfigModel TablesModel PeaksModel BuffersModel.
From Verif Require McModel McProps.
From Verif Require Import ReadModel PmapioModel PreadModel.
From Verif Require Import HaltSpec HaltWfSpec.
Local Open Scope nat_scope.

Lemma grown_filter {A} (key : A -> Z) n ev l l' : grown key n l l' -> ev <> n -> filter (fun r => (key r =? ev)%Z) l' = filter (fun r => (key r =? ev)%Z) l.
Proof.
  intros (m & -> & H) Hn. rewrite filter_app. replace (filter _ m) with (@nil A); [apply app_nil_r|]. symmetry. induction m as [|r m IH]; [reflexivity|]. cbn [filter].
  rewrite (H r) by now left. destruct (Z.eqb_spec n ev); [congruence|]. apply IH. intros x Hx. apply H. now right.
Qed.

(** waveforms: diomira, and buffy and detsim, then irene, hypathia, isidora and diomira *)
Theorem C121_waveforms_read : forall {E W S T C} (events : list E) runs (ws ws' : list W) (ss ss' : list S) (trg : option (list T)) (chn : option (list C)) items,
  let file ws ss := {| h_events := Some events; h_run := Some runs; h_pmt := Some ws; h_sipm := Some ss; h_trg := trg; h_chn := chn |} in
  wf_from_file (file ws ss) = (items, None) -> one_more ws ws' -> one_more ss ss' ->
  (ws' = ws /\ ss' = ss) \/ wf_from_file (file ws' ss') = ([], Some InvalidInputFileStructure).
Proof.
  intros E W S T C events runs ws ws' ss ss' trg chn items file. subst file. intros H (m & -> & Hm) (k & -> & Hk). revert H. unfold wf_from_file. cbn [h_events h_run h_pmt h_sipm h_trg h_chn].
  destruct runs as [|r runs]; [discriminate|]. cbn [app all_equal]. rewrite !app_length.
  destruct (Nat.eqb_spec (List.length ws) (List.length ss)) as [E1|]; cbn [andb]; [|discriminate]. destruct (Nat.eqb_spec (List.length ss) (List.length events)) as [E2|]; cbn [andb]; [|discriminate]. intros _.
  destruct m as [|a m].
  - destruct k as [|b k]; [left; now rewrite !app_nil_r|]. right. cbn [List.length]. rewrite (proj2 (Nat.eqb_neq _ _)) by lia. reflexivity.
  - right. cbn [List.length]. destruct (Nat.eqb_spec (List.length ws + Datatypes.S (List.length m)) (List.length ss + List.length k)); cbn [andb]; [|reflexivity].
    rewrite (proj2 (Nat.eqb_neq (_ + _) (List.length events))) by lia. reflexivity.
Qed.
Print Assumptions C121_waveforms_read.
(** an event that is listed and has no waveforms, as buffy and detsim leave it *)
Theorem C121_waveforms_missing : forall {E W S T C} (events : list E) e runs r (ws : list W) (ss : list S) (trg : option (list T)) (chn : option (list C)),
  List.length ws = List.length events ->
  wf_from_file {| h_events := Some (events ++ [e]); h_run := Some (r :: runs); h_pmt := Some ws; h_sipm := Some ss; h_trg := trg; h_chn := chn |} = ([], Some InvalidInputFileStructure).
Proof.
  intros E W S T C events e runs r ws ss trg chn H. unfold wf_from_file. cbn [h_events h_run h_pmt h_sipm h_trg h_chn app all_equal]. rewrite app_length. cbn [List.length].
  destruct (Nat.eqb_spec (List.length ws) (List.length ss)); cbn [andb]; [|reflexivity]. rewrite (proj2 (Nat.eqb_neq _ _)) by lia. reflexivity.
Qed.
Print Assumptions C121_waveforms_missing.

(** PMaps: irene and hypathia, then dorothea and sophronia *)
Lemma events_grown n t t' run events : pm_grown n t t' -> ~ In n (map fst events) -> pmap_events t' run events = pmap_events t run events.
Proof.
  intros (G1 & G2 & G3 & G4 & G5). induction events as [|[ev time] events IH]; [reflexivity|]. cbn [map fst In pmap_events]. intros Hn.
  assert (Hev : ev <> n) by tauto. unfold lazy_event, load_event, of_event_s, of_event_r.
  rewrite !(grown_filter _ _ _ _ _ G1 Hev), !(grown_filter _ _ _ _ _ G2 Hev), !(grown_filter _ _ _ _ _ G3 Hev), !(grown_filter _ _ _ _ _ G4 Hev), !(grown_filter _ _ _ _ _ G5 Hev).
  rewrite IH by tauto. reflexivity.
Qed.
Theorem C121_pmaps_read : forall runs events t t' n items, let file t := {| pf_tables := Some t; pf_runs := runs; pf_events := Some events |} in
  pmap_from_file (file t) = (items, None) -> pm_grown n t t' -> ~ In n (map fst events) ->
  pmap_from_file (file t') = (items, None) \/ pmap_from_file (file t') = ([], Some InvalidInputFileStructure).
Proof.
  intros runs events t t' n items file H G N. subst file. revert H. unfold pmap_from_file. cbn [pf_tables pf_runs pf_events]. destruct (run_of runs) as [run|]; [|now left]. destruct events as [|e events]; [now left|].
  set (es := e :: events) in *. clearbody es. unfold check_file_integrity. destruct (subsetb (map fst es) (table_events t')); cbn [andb]; [|now right]. destruct (subsetb (table_events t') _); [|now right].
  rewrite (events_grown _ _ _ _ _ G N). destruct (_ && _); [now left|discriminate].
Qed.
Print Assumptions C121_pmaps_read.

(** hits: sophronia, then esmeralda and beersheba; the tables of hits and of pointlike events have rows of an event that is not listed *)
Lemma unique_more l m n : (forall x, In x m -> x = n) -> m <> [] -> ~ In n l -> List.length (unique_events (l ++ m)) = S (List.length (unique_events l)).
Proof.
  intros Hm M N. unfold unique_events, McModel.unique. rewrite McProps.unique_from_app, app_length, Nat.add_comm. f_equal.
  destruct (McProps.unique_from_spec (rev l ++ []) m) as [U1 U2]. set (u := McModel.unique_from _ m) in *. clearbody u. cut (u = [n]); [intros ->; reflexivity|].
  assert (A : forall x, In x u -> x = n) by (intros x Hx; apply Hm, U2, Hx).
  assert (B : In n u) by (destruct m as [|a m]; [easy|]; apply U2; split; [left; apply Hm; now left|]; rewrite app_nil_r, <- in_rev; exact N).
  destruct u as [|a u]; [easy|]. assert (Ea : a = n) by (apply A; now left). subst a. destruct u as [|b u]; [reflexivity|]. exfalso. assert (Eb : b = n) by (apply A; right; now left). subst b. apply NoDup_cons_iff in U1. apply (proj1 U1). now left.
Qed.
Lemma map_fst_neq {B} n (e : Z * B) events : ~ In n (map fst events) -> In e events -> fst e <> n.
Proof. intros H1 H2 <-. apply H1. now apply in_map. Qed.
Theorem C121_hits_read : forall {H K} (he : H -> Z) (ke : K -> Z) runs events (hits hits' : list H) (kdst kdst' : list K) n items,
  let file hits kdst := {| f_hits := Some hits; f_kdst := Some kdst; f_runs := runs; f_events := Some events |} in
  hits_and_kdst_from_file he ke (file hits kdst) = (items, None) -> grown he n hits hits' -> grown ke n kdst kdst' -> ~ In n (map fst events) -> ~ In n (map ke kdst) ->
  hits_and_kdst_from_file he ke (file hits' kdst') = if List.length kdst' =? List.length kdst then (items, None) else match run_of runs with None => ([], None) | Some _ => ([], Some InvalidInputFileStructure) end.
Proof.
  intros H K he ke runs events hits hits' kdst kdst' n items file R G1 G2 N1 N2. subst file. revert R. unfold hits_and_kdst_from_file. cbn [f_hits f_kdst f_runs f_events].
  destruct (run_of runs) as [run|]; [|injection 1 as <-; now destruct (_ =? _)]. destruct (Nat.eqb_spec (List.length events) (List.length (unique_events (map ke kdst)))) as [E|]; [|discriminate]. injection 1 as <-.
  destruct G2 as (m & -> & Hm). destruct m as [|k m].
  - rewrite app_nil_r, Nat.eqb_refl, E, Nat.eqb_refl. f_equal. apply map_ext_in. intros [ev t] Hin. pose proof (map_fst_neq n _ _ N1 Hin). cbn [fst] in *. f_equal. now apply (grown_filter he n).
  - rewrite map_app, (unique_more _ _ n), <- E; [|intros x Hx; apply in_map_iff in Hx; destruct Hx as (r & <- & Hr); auto|discriminate|exact N2].
    rewrite (proj2 (Nat.eqb_neq _ _)) by lia. rewrite (proj2 (Nat.eqb_neq (List.length (kdst ++ _)) _)) by (rewrite app_length; cbn; lia). reflexivity.
Qed.
Print Assumptions C121_hits_read.

(** deconvolved hits: beersheba, then isaura; the events that are listed are read as if the run had ended there, and then the reader fails *)
Theorem C121_deco_read : forall {K} (ke : K -> Z) run runs events (hits hits' : list dhit) (kdst kdst' : list K) n items,
  let file hits kdst := {| f_hits := Some hits; f_kdst := Some kdst; f_runs := Some (run :: runs); f_events := Some events |} in
  dhits_from_file ke (file hits kdst) = (items, None) -> grown d_event n hits hits' -> grown ke n kdst kdst' -> ~ In n (map fst events) ->
  dhits_from_file ke (file hits' kdst') = (items, if List.length hits' =? List.length hits then None else Some IndexError).
Proof.
  intros K ke run runs events hits hits' kdst kdst' n items file R G1 G2 N. subst file. revert R. unfold dhits_from_file. cbn [f_hits f_kdst f_runs f_events run_of].
  assert (Lst : forall evs items, dhits_events ke hits (Some kdst) run events evs = (items, None) -> (forall more, dhits_events ke hits' (Some kdst') run events (evs ++ more) = let (l, e) := dhits_events ke hits' (Some kdst') run events more in (items ++ l, e)) /\ ~ In n evs).
  { induction evs as [|ev evs IH]; intros its; cbn [dhits_events app]; [injection 1 as <-; split; [intros more; now destruct (dhits_events _ _ _ _ _ more)|easy]|].
    destruct (filter (fun '(e, _) => (e =? ev)%Z) events) as [|[e t] rest] eqn:F; [discriminate|]. destruct (dhits_events ke hits (Some kdst) run events evs) as [l [x|]] eqn:D; [discriminate|]. injection 1 as <-.
    destruct (IH l eq_refl) as [I1 I2]. assert (Hev : ev <> n).
    { intros ->. apply N. assert (P : In (e, t) (filter (fun '(e, _) => (e =? n)%Z) events)) by (rewrite F; now left). apply filter_In in P. destruct P as [P1 P2]. apply Z.eqb_eq in P2. subst e. apply (in_map fst) in P1. exact P1. }
    split; [|cbn; intros [X|X]; [congruence|exact (I2 X)]]. intros more. rewrite I1. cbn [option_map]. rewrite (grown_filter _ _ _ _ _ G1 Hev), (grown_filter _ _ _ _ _ G2 Hev). now destruct (dhits_events ke hits' _ _ _ more). }
  intros R. destruct (Lst _ _ R) as [L1 L2]. destruct G1 as (m & E & Hm). subst hits'. rewrite map_app. unfold unique_events, McModel.unique in *. rewrite McProps.unique_from_app, L1. clear Lst L1.
  destruct m as [|h m].
  - cbn [map McModel.unique_from dhits_events]. now rewrite !app_nil_r, Nat.eqb_refl.
  - assert (N2 : ~ In n (map d_event hits)).
    { intros X. apply L2. destruct (McProps.unique_from_spec [] (map d_event hits)) as [_ U]. apply U. auto. }
    rewrite (proj2 (Nat.eqb_neq _ _)) by (rewrite app_length; cbn; lia). cbn [map McModel.unique_from]. rewrite (Hm h) by now left.
    destruct (existsb (Z.eqb n) (rev (map d_event hits) ++ [])) eqn:Ex.
    + exfalso. apply existsb_exists in Ex. destruct Ex as (y & Hy & Ey). apply Z.eqb_eq in Ey. subst y. rewrite app_nil_r, <- in_rev in Hy. easy.
    + cbn [dhits_events]. replace (filter (fun '(e, _) => (e =? n)%Z) events) with (@nil (Z * Q)); [now rewrite app_nil_r|]. symmetry. clear -N. induction events as [|[e t] events IH]; [reflexivity|]. cbn [filter map fst In] in *.
      destruct (Z.eqb_spec e n); [tauto|]. apply IH. tauto.
Qed.
Print Assumptions C121_deco_read.
(** the event 9 has a hit, and then also a row in DST/Events, and is not in Run *)
Example C121_read_ex :
  let file (hits : list (Z * Q)) (kdst : list (Z * Q)) := {| f_hits := Some hits; f_kdst := Some kdst; f_runs := Some [5%Z]; f_events := Some [(7%Z, 100%Q)] |} in
  let read f := hits_and_kdst_from_file fst fst f in
  snd (read (file [(7%Z, 1%Q)] [(7%Z, 3%Q)])) = None /\ grown fst 9 [(7%Z, 1%Q)] [(7%Z, 1%Q); (9%Z, 2%Q)] /\
  read (file [(7%Z, 1%Q); (9%Z, 2%Q)] [(7%Z, 3%Q)]) = read (file [(7%Z, 1%Q)] [(7%Z, 3%Q)]) /\
  read (file [(7%Z, 1%Q); (9%Z, 2%Q)] [(7%Z, 3%Q); (9%Z, 4%Q)]) = ([], Some InvalidInputFileStructure).
Proof. split; [reflexivity|]. split; [exists [(9%Z, 2%Q)]; split; [reflexivity|intros r [<-|[]]; reflexivity]|]. split; reflexivity. Qed.
Print Assumptions C121_read_ex.
Example C121_deco_ex :
  let h n := {| d_event := n; d_npeak := 0; d_pos := (1, 2, 3)%Q; d_Q := 1; d_E := 4; d_more := None |} in
  let file (hits : list dhit) := {| f_hits := Some hits; f_kdst := Some [(7%Z, 3%Q)]; f_runs := Some [5%Z]; f_events := Some [(7%Z, 100%Q)] |} in
  snd (dhits_from_file fst (file [h 7%Z])) = None /\ dhits_from_file fst (file [h 7%Z; h 9%Z]) = (fst (dhits_from_file fst (file [h 7%Z])), Some IndexError).
Proof. split; reflexivity. Qed.
Print Assumptions C121_deco_ex.
