(** C86: the configurations and indices of the output of a chain of cities *)
From Verif Require Import Base ProvModel ProvSpec.
From Coq Require Import Lia.
Local Open Scope list_scope.
Arguments String.eqb : simpl never.

Lemma lookup_cons {A} k k' (v : A) l : lookup k ((k', v) :: l) = if String.eqb k' k then Some v else lookup k l.
Proof. unfold lookup. cbn [find fst]. now destruct (String.eqb k' k). Qed.
Lemma lookup_app {A} k (l m : list (string * A)) : lookup k (l ++ m) = match lookup k l with Some v => Some v | None => lookup k m end.
Proof. induction l as [|[k' v] l IH]; [reflexivity|]. cbn [app]. rewrite !lookup_cons. destruct (String.eqb k' k); [reflexivity|apply IH]. Qed.
Lemma lookup_none {A} k (l : list (string * A)) : lookup k l = None <-> ~ In k (map fst l).
Proof.
  induction l as [|[k' v] l IH]; [split; [intros _ []|reflexivity]|]. rewrite lookup_cons. cbn [map fst In]. destruct (String.eqb_spec k' k) as [->|N]; [split; [discriminate|intros H; exfalso; apply H; now left]|]. rewrite IH. tauto.
Qed.
Lemma lookup_set k v d k' : lookup k' (set_key k v d) = if String.eqb k k' then Some v else lookup k' d.
Proof.
  induction d as [|[k0 v0] d IH]; [cbn [set_key]; now rewrite lookup_cons|]. cbn [set_key]. destruct (String.eqb_spec k0 k) as [->|N]; rewrite ?lookup_cons; [now destruct (String.eqb k k')|]. rewrite IH. destruct (String.eqb_spec k k') as [->|]; [|reflexivity]. destruct (String.eqb_spec k0 k'); [contradiction|reflexivity].
Qed.
Lemma set_new k v d : ~ In k (map fst d) -> set_key k v d = d ++ [(k, v)].
Proof. induction d as [|[k0 v0] d IH]; intros H; [reflexivity|]. cbn [set_key map fst In] in *. destruct (String.eqb_spec k0 k) as [->|N]; [exfalso; apply H; now left|]. cbn [app]. f_equal. apply IH. tauto. Qed.
Lemma set_keys k v d : map fst (set_key k v d) = if in_dec string_dec k (map fst d) then map fst d else map fst d ++ [k].
Proof.
  induction d as [|[k0 v0] d IH]; [reflexivity|]. cbn [set_key]. destruct (String.eqb_spec k0 k) as [->|N]; cbn [map fst].
  - destruct (in_dec string_dec k (k :: map fst d)) as [|C]; [reflexivity|]. exfalso. apply C. now left.
  - rewrite IH. destruct (in_dec string_dec k (map fst d)) as [I|I]; destruct (in_dec string_dec k (k0 :: map fst d)) as [J|J]; try reflexivity; [exfalso; apply J; now right|]. destruct J as [J|J]; congruence.
Qed.
Lemma nodup_snoc {A} (l : list A) a : NoDup l -> ~ In a l -> NoDup (l ++ [a]).
Proof. intros H N. apply NoDup_rev in H. rewrite <- (rev_involutive (l ++ [a])), rev_app_distr. apply NoDup_rev. cbn. apply NoDup_cons; [now rewrite <- in_rev|assumption]. Qed.
Lemma set_nodup k v d : NoDup (map fst d) -> NoDup (map fst (set_key k v d)).
Proof. intros H. rewrite set_keys. destruct (in_dec string_dec k (map fst d)); [assumption|now apply nodup_snoc]. Qed.
Lemma set_twice k v w d : set_key k v (set_key k w d) = set_key k v d.
Proof. induction d as [|[k0 v0] d IH]; cbn [set_key]; [now rewrite String.eqb_refl|]. destruct (String.eqb_spec k0 k) as [->|N]; cbn [set_key]; [now rewrite String.eqb_refl|]. destruct (String.eqb_spec k0 k); [contradiction|]. now rewrite IH. Qed.
Lemma set_swap k v k' v' d : k <> k' -> In k (map fst d) -> set_key k v (set_key k' v' d) = set_key k' v' (set_key k v d).
Proof.
  intros N. induction d as [|[k0 v0] d IH]; intros H; [destruct H|]. cbn [set_key]. destruct (String.eqb_spec k0 k') as [E1|N1]; destruct (String.eqb_spec k0 k) as [E2|N2]; cbn [set_key].
  - congruence.
  - rewrite (proj2 (String.eqb_neq k' k)), (proj2 (String.eqb_eq k0 k')) by congruence. reflexivity.
  - rewrite (proj2 (String.eqb_eq k0 k)), (proj2 (String.eqb_neq k k')) by congruence. reflexivity.
  - rewrite (proj2 (String.eqb_neq k0 k)), (proj2 (String.eqb_neq k0 k')) by congruence. cbn [map fst] in H. destruct H as [H|H]; [contradiction|]. now rewrite IH.
Qed.
Lemma update_keys e d k : In k (map fst d) -> In k (map fst (update d e)).
Proof. revert d. induction e as [|[k' v'] e IH]; intros d H; [exact H|]. cbn [update fold_left fst snd]. apply IH. rewrite set_keys. destruct (in_dec string_dec k' (map fst d)); [assumption|]. apply in_or_app. now left. Qed.
Lemma set_update k v e d : ~ In k (map fst e) -> In k (map fst d) -> set_key k v (update d e) = update (set_key k v d) e.
Proof.
  revert d. induction e as [|[k' v'] e IH]; intros d H I; [reflexivity|]. cbn [update fold_left fst snd]. cbn [map fst In] in H. unfold update in IH. rewrite IH; [|tauto|rewrite set_keys; destruct (in_dec string_dec k' (map fst d)); [assumption|apply in_or_app; now left]]. rewrite set_swap; [reflexivity| |assumption]. intros ->. apply H. now left.
Qed.
Lemma update_set k v e d : NoDup (map fst e) -> update d (set_key k v e) = set_key k v (update d e).
Proof.
  revert d. induction e as [|[k' v'] e IH]; intros d N; [reflexivity|]. cbn [set_key]. cbn [map fst] in N. apply NoDup_cons_iff in N as [N1 N2]. destruct (String.eqb_spec k' k) as [->|Ne].
  - cbn [update fold_left fst snd]. change (update (set_key k v d) e = set_key k v (update (set_key k v' d) e)). rewrite set_update; [now rewrite set_twice|assumption|]. rewrite set_keys. destruct (in_dec string_dec k (map fst d)); [assumption|]. apply in_or_app. right. now left.
  - cbn [update fold_left fst snd]. now apply IH.
Qed.
Lemma update_snoc d e kv : update d (e ++ [kv]) = set_key (fst kv) (snd kv) (update d e).
Proof. unfold update. now rewrite fold_left_app. Qed.
Lemma update_nodup e d : NoDup (map fst d) -> NoDup (map fst (update d e)).
Proof. revert d. induction e as [|kv e IH]; intros d H; [exact H|]. cbn [update fold_left]. apply IH. now apply set_nodup. Qed.
Lemma update_dict d l : update d (update [] l) = update d l.
Proof. induction l as [|kv l IH] using rev_ind; [reflexivity|]. rewrite !update_snoc, update_set by (apply update_nodup; constructor). now rewrite IH. Qed.
Lemma update_app d l m : update d (l ++ m) = update (update d l) m.
Proof. unfold update. now rewrite fold_left_app. Qed.

Fixpoint conf_ind' (P : conf -> Prop) (Hl : forall v, P (Leaf v)) (Hd : forall items, Forall (fun kv => P (snd kv)) items -> P (Dict items)) (c : conf) : P c :=
  match c with
  | Leaf v => Hl v
  | Dict items => Hd items ((fix go (l : list (string * conf)) : Forall (fun kv => P (snd kv)) l := match l with [] => Forall_nil _ | kv :: l => Forall_cons kv (conf_ind' P Hl Hd (snd kv)) (go l) end) items)
  end.
Lemma flat_is c path : dict_to_string c path = match c with Leaf _ => [] | Dict _ => update [] (leaves path c) end.
Proof.
  revert path. induction c as [v|items IH] using conf_ind'; intros path; [reflexivity|]. cbn [dict_to_string leaves].
  assert (G : forall acc, (fix go (items : list (string * conf)) (flat_dict : dict) : dict := match items with [] => flat_dict | (k, v) :: items => let nk := new_key path k in go items (match v with Dict _ => update flat_dict (dict_to_string v nk) | Leaf s => set_key nk s flat_dict end) end) items acc
    = update acc ((fix go (items : list (string * conf)) := match items with [] => [] | (k, v) :: items => leaves (if String.eqb path "" then k else path ++ "." ++ k)%string v ++ go items end) items)).
  { induction IH as [|[k v] items Hv _ IHl]; intros acc; [reflexivity|]. cbv zeta. rewrite IHl, update_app. f_equal. fold (new_key path k). destruct v as [s|l]; [reflexivity|]. cbn [snd] in Hv. rewrite Hv. apply update_dict. }
  apply G.
Qed.
Lemma update_fresh l : NoDup (map fst l) -> update [] l = l.
Proof.
  induction l as [|[k v] l IH] using rev_ind; intros N; [reflexivity|]. rewrite map_app in N. cbn [map fst] in N. rewrite update_snoc. cbn [fst snd]. assert (Nl : NoDup (map fst l) /\ ~ In k (map fst l)). { apply NoDup_rev in N. rewrite rev_app_distr in N. cbn in N. apply NoDup_cons_iff in N as [N1 N2]. split; [apply NoDup_rev in N2; now rewrite rev_involutive in N2|now rewrite <- in_rev in N1]. } destruct Nl as [Nl Nk]. rewrite (IH Nl). now apply set_new.
Qed.
Lemma lookup_update k l : lookup k (update [] l) = last_value k l.
Proof. unfold last_value. induction l as [|[k' v] l IH] using rev_ind; [reflexivity|]. rewrite update_snoc, rev_app_distr. cbn [fst snd rev app]. rewrite lookup_set, lookup_cons, IH. reflexivity. Qed.

(** ** C86: the flat dictionary holds every value of the nested one under its path, in order, when the paths differ *)
Theorem C86_flat args : NoDup (map fst (values args)) -> dict_to_string (Dict args) "" = values args.
Proof. intros N. rewrite flat_is. now apply update_fresh. Qed.
Print Assumptions C86_flat.
(** ** C86: in general each path appears once with the last of its values *)
Theorem C86_last args k : lookup k (dict_to_string (Dict args) "") = last_value k (values args) /\ NoDup (map fst (dict_to_string (Dict args) "")).
Proof. rewrite flat_is. split; [apply lookup_update|apply update_nodup; constructor]. Qed.
Print Assumptions C86_last.
Example C86_flat_ex : let args := [("files_in", Leaf "[a]"); ("corrections", Dict [("filename", Leaf "m"); ("norm", Dict [("mode", Leaf "max")])]); ("run_number", Leaf "7")]%string in
  NoDup (map fst (values args)) /\ dict_to_string (Dict args) "" = [("files_in", "[a]"); ("corrections.filename", "m"); ("corrections.norm.mode", "max"); ("run_number", "7")]%string.
Proof. cbv zeta. split; [|reflexivity]. cbn. repeat (apply NoDup_cons; [cbn; intuition discriminate|]). apply NoDup_nil. Qed.
(** A key with a dot may hide a nested one, and an empty dictionary leaves no trace *)
Theorem C86_dotted_refuted : dict_to_string (Dict [("a", Dict [("b", Leaf "1")]); ("a.b", Leaf "2"); ("c", Dict [])])%string "" = [("a.b", "2")]%string.
Proof. reflexivity. Qed.
Print Assumptions C86_dotted_refuted.

Lemma append_new name rows l : lookup name l = None -> append_rows name rows l = l ++ [(name, rows)].
Proof. induction l as [|[n old] l IH]; [reflexivity|]. rewrite lookup_cons. cbn [append_rows]. destruct (String.eqb n name); [discriminate|]. intros H. cbn [app]. now rewrite IH. Qed.
Lemma copy_ok l there : NoDup (map fst l) -> (forall n, In n (map fst l) -> ~ In n (map fst there)) -> copy_nodes l there = (there ++ l, Ok tt).
Proof.
  revert there. induction l as [|[n rows] l IH]; intros there N H; [now rewrite app_nil_r|]. cbn [map fst] in N, H. apply NoDup_cons_iff in N as [N1 N2]. cbn [copy_nodes]. rewrite (proj2 (lookup_none n there)) by (apply H; now left). rewrite IH; [now rewrite <- app_assoc|assumption|]. intros m Hm C. rewrite map_app in C. apply in_app_or in C as [C|[<-|[]]]; [apply (H m); [now right|assumption]|contradiction].
Qed.
Lemma copy_clash l there n : In n (map fst l) -> In n (map fst there) -> exists c, copy_nodes l there = (c, Err NodeError).
Proof.
  revert there. induction l as [|[m rows] l IH]; intros there H I; [destruct H|]. cbn [copy_nodes]. destruct (lookup m there) eqn:E; [eauto|]. cbn [map fst] in H. destruct H as [->|H]; [apply lookup_none in E; contradiction|]. apply IH; [assumption|]. rewrite map_app. apply in_or_app. now left.
Qed.
Lemma index_ok cols todo indexed : NoDup (indexed ++ todo) -> (forall c, In c todo -> In c cols) -> index_columns cols todo indexed = (indexed ++ todo, Ok tt).
Proof.
  revert indexed. induction todo as [|c todo IH]; intros indexed N H; [now rewrite app_nil_r|]. cbn [index_columns]. assert (E : existsb (String.eqb c) cols = true) by (apply existsb_exists; exists c; split; [apply H; now left|apply String.eqb_refl]). rewrite E.
  destruct (existsb (String.eqb c) indexed) eqn:D. { exfalso. apply existsb_exists in D as (x & Hx & Ex). apply String.eqb_eq in Ex. subst x. apply NoDup_remove in N as [_ N]. apply N. apply in_or_app. now left. }
  rewrite IH; [now rewrite <- app_assoc|now rewrite <- app_assoc|intros; apply H; now right].
Qed.
Lemma index_all_ok l : (forall t, In t l -> indexable t) -> index_all l = (map with_index l, Ok tt).
Proof.
  induction l as [|t l IH]; intros H; [reflexivity|]. cbn [index_all map]. destruct (H t) as [E A]; [now left|]. assert (I : match tab_attr t with None => (tab_indexed t, Ok tt) | Some todo => index_columns (tab_cols t) todo (tab_indexed t) end = (match tab_attr t with Some l => l | None => [] end, Ok tt)). { destruct (tab_attr t) as [todo|]; rewrite E; [|reflexivity]. destruct A. now rewrite index_ok. }
  rewrite I, IH by (intros; apply H; now right). reflexivity.
Qed.
Definition config_names (f : file) : list string := match f_config f with Some l => map fst l | None => [] end.
(** ** C86: the output of a city has its configuration, those of its first input file and the indices its tables ask for *)
Theorem C86_city fin others tables city args : (forall t, In t tables -> indexable t) -> NoDup (config_names fin) -> ~ In city (config_names fin) ->
  exists f, finish (fin :: others) {| f_config := None; f_tables := tables |} city args = (f, Ok tt) /\ f_tables f = map with_index tables /\ NoDup (config_names f) /\
    (forall name, config_of f name = if String.eqb name city then Some (map cut_row (dict_to_string args "")) else config_of fin name).
Proof.
  intros Ht N Nc. unfold finish, write_city_configuration. cbn [f_config f_tables append_rows]. unfold copy_cities_configuration. unfold config_names in *. unfold config_of. destruct (f_config fin) as [l|].
  - cbn [f_config]. rewrite copy_ok; [|assumption|intros n Hn [<-|[]]; contradiction]. unfold index_tables. cbn [f_tables f_config]. rewrite index_all_ok by assumption. eexists. split; [reflexivity|]. cbn [f_tables f_config]. split; [reflexivity|]. split; [cbn [app map fst]; now apply NoDup_cons|]. intros name. cbn [app]. rewrite lookup_cons. destruct (String.eqb_spec city name) as [->|D]; [now rewrite String.eqb_refl|]. destruct (String.eqb_spec name city); [congruence|reflexivity].
  - unfold index_tables. cbn [f_tables f_config]. rewrite index_all_ok by assumption. eexists. split; [reflexivity|]. cbn [f_tables f_config]. split; [reflexivity|]. split; [cbn [app map fst]; now apply NoDup_cons|]. intros name. rewrite lookup_cons. destruct (String.eqb_spec city name) as [->|D]; [now rewrite String.eqb_refl|]. destruct (String.eqb_spec name city); [congruence|reflexivity].
Qed.
Print Assumptions C86_city.
(** ** C86: after a chain of different cities the last file has the configuration of each of them, and those of the first file *)
Theorem C86_chain rs : forall f0, (forall r t, In r rs -> In t (r_tables r) -> indexable t) -> NoDup (map r_city rs) -> NoDup (config_names f0) -> (forall r, In r rs -> ~ In (r_city r) (config_names f0)) ->
  exists f, chain f0 rs = Ok f /\ (forall r, In r rs -> config_of f (r_city r) = Some (map cut_row (dict_to_string (Dict (r_args r)) ""))) /\ (forall name, ~ In name (map r_city rs) -> config_of f name = config_of f0 name).
Proof.
  induction rs as [|r rs IH]; intros f0 Ht N N0 D; [exists f0; split; [reflexivity|]; split; [intros r []|reflexivity]|]. cbn [map] in N. apply NoDup_cons_iff in N as [N1 N2].
  destruct (C86_city f0 (r_others r) (r_tables r) (r_city r) (Dict (r_args r))) as (f1 & E & _ & Nf & C); [intros t H; apply (Ht r t); [now left|assumption]|assumption|apply D; now left|].
  assert (Sub : forall name, In name (config_names f1) -> name = r_city r \/ In name (config_names f0)).
  { intros name H. destruct (String.eqb_spec name (r_city r)) as [|Ne]; [now left|]. right. specialize (C name). rewrite (proj2 (String.eqb_neq _ _) Ne) in C. unfold config_of, config_names in *. destruct (f_config f1) as [l1|]; [|destruct H]. destruct (f_config f0) as [l0|].
    - destruct (in_dec string_dec name (map fst l0)); [assumption|]. exfalso. apply lookup_none in n. rewrite n in C. apply lookup_none in C. contradiction.
    - apply lookup_none in C. contradiction. }
  destruct (IH f1) as (f & Ef & Cf & Cf'); [intros r' t Hr; apply Ht; now right|assumption|assumption|intros r' Hr Hc; apply Sub in Hc as [Hc|Hc]; [apply N1; rewrite <- Hc; now apply in_map|apply (D r'); [now right|assumption]]|].
  exists f. cbn [chain]. rewrite E. split; [exact Ef|]. split.
  - intros r' [<-|Hr]; [rewrite Cf' by assumption; rewrite C, String.eqb_refl; reflexivity|now apply Cf].
  - intros name H. cbn [map In] in H. rewrite Cf' by tauto. rewrite C. destruct (String.eqb_spec name (r_city r)) as [->|]; [exfalso; apply H; now left|reflexivity].
Qed.
Print Assumptions C86_chain.
Example C86_chain_ex : let irene := {| r_city := "irene"; r_args := [("run_number", Leaf "7")]; r_tables := [{| tab_name := "S1"; tab_cols := ["event"; "peak"]; tab_attr := Some ["event"]; tab_indexed := [] |}]; r_others := [] |}%string in
  let dorothea := {| r_city := "dorothea"; r_args := [("cuts", Dict [("n", Leaf "1")])]; r_tables := []; r_others := [] |}%string in let raw := {| f_config := None; f_tables := [] |} in
  (forall r t, In r [irene; dorothea] -> In t (r_tables r) -> indexable t) /\ NoDup (map r_city [irene; dorothea]) /\ NoDup (config_names raw) /\ (forall r, In r [irene; dorothea] -> ~ In (r_city r) (config_names raw)) /\
  exists f, chain raw [irene; dorothea] = Ok f /\ config_of f "irene" = Some [("run_number", "7")]%string /\ config_of f "dorothea" = Some [("cuts.n", "1")]%string.
Proof.
  cbv zeta. split; [|split; [|split; [|split]]].
  - intros r t [<-|[<-|[]]] H; cbn [r_tables] in H; [|destruct H]. destruct H as [<-|[]]. split; [reflexivity|]. cbn. split; [apply NoDup_cons; [intros []|apply NoDup_nil]|]. intros c [<-|[]]; now left.
  - cbn. apply NoDup_cons; [intros [H|[]]; discriminate|]. apply NoDup_cons; [intros []|apply NoDup_nil].
  - apply NoDup_nil.
  - intros r _ [].
  - eexists. repeat split; reflexivity.
Qed.

(** ** C86: a city that is already in the history of its first input file fails when it has finished, and indexes no table *)
Theorem C86_repeated fin others tables city args : In city (config_names fin) ->
  exists f, finish (fin :: others) {| f_config := None; f_tables := tables |} city args = (f, Err NodeError) /\ f_tables f = tables.
Proof.
  intros H. unfold finish, write_city_configuration. cbn [f_config f_tables append_rows]. unfold copy_cities_configuration. unfold config_names in H. destruct (f_config fin) as [l|]; [|destruct H]. cbn [f_config]. match goal with |- context [copy_nodes l ?x] => destruct (copy_clash l x city H) as (c & E); [now left|] end. rewrite E. eexists. split; reflexivity.
Qed.
Print Assumptions C86_repeated.
Example C86_repeated_ex : exists f g, chain {| f_config := None; f_tables := [] |} [{| r_city := "isaura"; r_args := []; r_tables := []; r_others := [] |}]%string = Ok f /\ In "isaura"%string (config_names f) /\
  finish [f] {| f_config := None; f_tables := [] |} "isaura" (Dict []) = (g, Err NodeError).
Proof. eexists. eexists. split; [reflexivity|]. split; [now left|reflexivity]. Qed.
(** Only the first input file counts: the configuration of what made the second one is in no output *)
Theorem C86_others_refuted : let old n v := {| f_config := Some [(n, [("run_number", v)])]; f_tables := [] |}%string in
  exists f, finish [old "irene" "7"; old "hypathia" "8"]%string {| f_config := None; f_tables := [] |} "dorothea" (Dict []) = (f, Ok tt) /\ config_of f "irene" = Some [("run_number", "7")]%string /\ config_of f "hypathia" = None.
Proof. eexists. repeat split; reflexivity. Qed.
Print Assumptions C86_others_refuted.
(** Values of more than 300 characters, as long lists of files, are cut *)
Fixpoint long (n : nat) : string := match n with O => EmptyString | S n => String.append "x" (long n) end.
Theorem C86_cut_refuted : exists f, chain {| f_config := None; f_tables := [] |} [{| r_city := "irene"; r_args := [("files_in", Leaf (long 301))]; r_tables := []; r_others := [] |}]%string = Ok f /\
  config_of f "irene" = Some [("files_in"%string, long 300)].
Proof. eexists. split; reflexivity. Qed.
Print Assumptions C86_cut_refuted.
(** ** C86: shorter ones are kept *)
Theorem C86_short s : (String.length s <= 300)%nat -> cut s = s.
Proof.
  unfold cut. generalize 300%nat. induction s as [|c s IH]; intros n H; cbn [String.length] in H; [now destruct n|]. destruct n as [|n]; [lia|]. cbn [substring]. f_equal. apply IH. lia.
Qed.
Print Assumptions C86_short.
