(** C85: tables of calibration parameters *)
From Verif Require Import Base Arrays ChanModel ChanSpec.
Local Open Scope Q_scope.
Local Open Scope list_scope.
Arguments table_name : simpl never.
Arguments String.eqb : simpl never.

Lemma find_app n f m t : find_table n (f ++ [(m, t)]) = match find_table n f with Some t' => Some t' | None => if String.eqb m n then Some t else None end.
Proof. induction f as [|[m' t'] f IH]; cbn; [now destruct (String.eqb m n)|]. destruct (String.eqb m' n); [reflexivity|apply IH]. Qed.
Lemma find_put n m t f : find_table n (put_table m t f) = if String.eqb n m then match find_table n f with Some _ => Some t | None => None end else find_table n f.
Proof.
  induction f as [|[m' t'] f IH]; cbn [put_table map find_table fst]; [now destruct (String.eqb n m)|]. destruct (String.eqb_spec m' m) as [->|N]; cbn [find_table].
  - destruct (String.eqb_spec m n) as [->|N]; [now rewrite String.eqb_refl|]. rewrite (proj2 (String.eqb_neq n m)) in * by congruence. exact IH.
  - destruct (String.eqb_spec m' n) as [->|N']; [rewrite (proj2 (String.eqb_neq n m)) by assumption; reflexivity|exact IH].
Qed.
Definition pairs (ps : list string) : list (string * shape) := map (fun p => (p, pair_of)) ps.
Lemma pairs_names ps : map fst (pairs ps) = ps.
Proof. unfold pairs. rewrite map_map. cbn. apply map_id. Qed.
Lemma index_of_in k l : In k l -> exists i, index_of k l = Some i /\ nth_error l i = Some k.
Proof.
  induction l as [|x l IH]; intros H; [destruct H|]. cbn. destruct (String.eqb_spec x k) as [->|N]; [exists 0%nat; auto|]. destruct H as [->|H]; [contradiction|]. destruct (IH H) as (i & E & Hi). exists (S i). rewrite E. auto.
Qed.
Lemma index_of_none k l : index_of k l = None <-> ~ In k l.
Proof.
  induction l as [|x l IH]; cbn; [tauto|]. destruct (String.eqb_spec x k) as [->|N]; [split; [discriminate|tauto]|]. destruct (index_of k l); cbn; split; intros H; try discriminate; [destruct IH as [_ IH]; assert (C : Some n = None) by (apply IH; tauto); discriminate|destruct IH as [IH _]; specialize (IH eq_refl); tauto|reflexivity].
Qed.
Definition cell_of (f32 : Q -> Q) (v : Q * Q) : arr := Vec [f32 (fst v); f32 (snd v)].
Lemma upd_map {B} (g : string -> B) ps i k v : NoDup ps -> nth_error ps i = Some k -> upd i v (map g ps) = map (fun p => if String.eqb p k then v else g p) ps.
Proof.
  revert i. induction ps as [|p ps IH]; intros i N E; [destruct i; discriminate|]. apply NoDup_cons_iff in N as [N1 N2]. destruct i as [|i]; cbn [nth_error] in E.
  - injection E as ->. cbn. rewrite String.eqb_refl. f_equal. apply map_ext_in. intros q Hq. destruct (String.eqb_spec q k) as [->|]; [contradiction|reflexivity].
  - cbn. destruct (String.eqb_spec p k) as [->|]; [exfalso; apply N1; now apply nth_error_In in E|]. f_equal. now apply IH.
Qed.
Definition cells (l : list (string * (Q * Q))) := map (fun kv => (fst kv, Vec [fst (snd kv); snd (snd kv)])) l.
Lemma set_items_ok f32 ps l g : NoDup ps -> NoDup (map fst l) -> (forall k, In k (map fst l) -> In k ps) ->
  set_items f32 (pairs ps) (cells l) (map g ps) = (map (fun p => match given p l with Some v => cell_of f32 v | None => g p end) ps, Ok tt).
Proof.
  intros Np. revert g. induction l as [|[k v] l IH]; intros g Nl H; cbn [cells map set_items]; [reflexivity|]. cbn [map fst] in Nl, H. apply NoDup_cons_iff in Nl as [N1 N2]. destruct (index_of_in k ps) as (i & E & Hi); [apply H; now left|].
  unfold set_item. cbn [fst snd]. rewrite pairs_names, E. assert (nth_error (pairs ps) i = Some (k, pair_of)) as -> by (unfold pairs; now rewrite nth_error_map, Hi). cbn [snd fits llength Nat.eqb]. rewrite (upd_map g ps i k _ Np Hi). fold (cells l). rewrite IH; [|assumption|intros k' Hk; apply H; now right].
  f_equal. apply map_ext_in. intros p _. unfold given. cbn [find fst]. destruct (String.eqb_spec k p) as [->|N].
  - cbn [option_map snd]. assert (F : find (fun kv : string * (Q * Q) => String.eqb (fst kv) p) l = None). { destruct (find (fun kv : string * (Q * Q) => String.eqb (fst kv) p) l) as [[k' v']|] eqn:F; [|reflexivity]. apply find_some in F as [F1 F2]. cbn in F2. apply String.eqb_eq in F2. subst k'. exfalso. apply N1. now apply (in_map fst) in F1. } rewrite F. cbn [option_map]. now rewrite String.eqb_refl.
  - rewrite (proj2 (String.eqb_neq p k)) by congruence. reflexivity.
Qed.
Lemma set_items_bad f32 ps l row : ~ (forall k, In k (map fst l) -> In k ps) -> exists row' , set_items f32 (pairs ps) (cells l) row = (row', Err KeyError).
Proof.
  revert row. induction l as [|[k v] l IH]; intros row H; [exfalso; apply H; intros k []|]. cbn [cells map set_items fst snd]. unfold set_item. rewrite pairs_names. destruct (index_of k ps) as [i|] eqn:E; [|eauto].
  assert (I : In k ps). { destruct (in_dec string_dec k ps); [assumption|]. apply index_of_none in n. congruence. } destruct (index_of_in k ps I) as (i' & E' & Hi). rewrite E in E'. injection E' as <-. assert (nth_error (pairs ps) i = Some (k, pair_of)) as -> by (unfold pairs; now rewrite nth_error_map, Hi). cbn [snd fits llength Nat.eqb]. apply IH. intros C. apply H. intros k' [<-|Hk]; auto.
Qed.
Definition row_of (f32 : Q -> Q) (ps : list string) (x : fit) : N * list arr := (f_sensor x, map (fun p => match given p (f_values x) with Some v => cell_of f32 v | None => Vec [0; 0] end) ps).
Definition state_of (f32 : Q -> Q) (ps : list string) (xs : list fit) : table := {| t_cols := pairs ps; t_rows := map (row_of f32 ps) xs; t_row := (0%N, defaults (pairs ps)) |}.
Lemma defaults_pairs ps : defaults (pairs ps) = map (fun _ => Vec [0; 0]) ps.
Proof. unfold defaults, pairs. rewrite map_map. reflexivity. Qed.
Lemma store_ok f32 ps xs x : NoDup ps -> NoDup (map fst (f_values x)) -> (forall k, In k (map fst (f_values x)) -> In k ps) ->
  store_fit_values f32 (state_of f32 ps xs) (f_sensor x) (cells (f_values x)) = (state_of f32 ps (xs ++ [x]), Ok tt).
Proof.
  intros N1 N2 H. unfold store_fit_values, state_of. cbn [t_cols t_row t_rows snd]. rewrite defaults_pairs, set_items_ok by assumption. rewrite map_app. reflexivity.
Qed.
Lemma params_app ops o name : params_of (ops ++ [o]) name = match params_of ops name with Some p => Some p | None => match o with Create st fn ps => if String.eqb (table_name st fn) name then Some ps else None | _ => None end end.
Proof. induction ops as [|[st fn ps|x] ops IH]; cbn; [now destruct o as [st fn ps|x]; [destruct (String.eqb (table_name st fn) name)|]| |apply IH]. destruct (String.eqb (table_name st fn) name); [reflexivity|apply IH]. Qed.
Lemma fits_app ops o name : fits_of (ops ++ [o]) name = fits_of ops name ++ fits_of [o] name.
Proof. unfold fits_of. now rewrite flat_map_app. Qed.
Definition known (f32 : Q -> Q) (ops : list op) (f : file) : Prop := forall name, find_table name f = match params_of ops name with Some ps => Some (state_of f32 ps (fits_of ops name)) | None => None end.
Lemma params_nodup ops name ps : (forall o, In o ops -> proper o) -> params_of ops name = Some ps -> NoDup ps.
Proof. induction ops as [|[st fn qs|x] ops IH]; cbn [params_of]; intros H E; [discriminate| |]. - destruct (String.eqb (table_name st fn) name); [injection E as <-; apply (H (Create st fn qs)); now left|]. apply IH; [intros; apply H; now right|assumption]. - apply IH; [intros; apply H; now right|assumption]. Qed.
Lemma step_known f32 before o f : (forall p, In p (before ++ [o]) -> proper p) -> known f32 before f -> (forall n, params_of before n = None -> fits_of before n = []) ->
  (possible before o -> exists f', step f32 f o = Ok f' /\ known f32 (before ++ [o]) f') /\ (~ possible before o -> exists e, step f32 f o = Err e).
Proof.
  intros Pr K Em. destruct o as [st fn ps|x]; cbn [possible step].
  - unfold channel_param_writer. rewrite (K (table_name st fn)). destruct (params_of before (table_name st fn)) as [qs|] eqn:E; (split; [intros H|intros H]); try discriminate; [eauto| |contradiction]. eexists. split; [reflexivity|]. intros name. rewrite find_app, params_app, fits_app, (K name). cbn [fits_of flat_map]. rewrite !app_nil_r. destruct (params_of before name) as [qs|] eqn:E2; [reflexivity|]. destruct (String.eqb (table_name st fn) name); [|reflexivity]. rewrite (Em name E2). unfold state_of, make_table_dictionary. rewrite app_nil_r. reflexivity.
  - unfold store_channel_fit. rewrite (K (f_table x)). destruct (params_of before (f_table x)) as [ps|] eqn:E; [|split; [intros (? & [=] & _)|eauto]]. fold (cells (f_values x)). assert (Nx : NoDup (map fst (f_values x))) by (apply (Pr (Store x)); apply in_or_app; right; now left). assert (Np : NoDup ps) by (apply (params_nodup before (f_table x)); [intros; apply Pr; apply in_or_app; now left|assumption]). split.
    + intros (qs & [= <-] & H). rewrite store_ok by assumption. eexists. split; [reflexivity|]. intros name. rewrite find_put, params_app, fits_app, (K name). cbn [fits_of flat_map]. rewrite app_nil_r. destruct (String.eqb_spec name (f_table x)) as [->|N]; [rewrite E, String.eqb_refl; reflexivity|]. rewrite (proj2 (String.eqb_neq (f_table x) name)), app_nil_r by congruence. destruct (params_of before name); reflexivity.
    + intros H. destruct (set_items_bad f32 ps (f_values x) (snd (t_row (state_of f32 ps (fits_of before (f_table x)))))) as (row' & E'); [intros C; apply H; eauto|]. unfold store_fit_values. cbn [t_cols state_of] in *. rewrite E'. eauto.
Qed.

Lemma run_app f32 ops ops' f : run f32 f (ops ++ ops') = rbind (run f32 f ops) (fun f => run f32 f ops').
Proof. revert f. induction ops as [|o ops IH]; intros f; [reflexivity|]. cbn [app run]. destruct (step f32 f o); cbn [rbind]; [apply IH|reflexivity]. Qed.
Lemma in_order_snoc ops o : in_order (ops ++ [o]) <-> in_order ops /\ possible ops o.
Proof.
  split.
  - intros H. split; [|now apply (H ops o [])]. intros b p a E. apply (H b p (a ++ [o])). now rewrite E, <- app_assoc.
  - intros [H1 H2] b p a E. destruct (exists_last (l := p :: a)) as (l & z & El); [discriminate|]. rewrite El, app_assoc in E. apply app_inj_tail in E as [E ->]. destruct l as [|p' l]; cbn in El; injection El as <- ->; [rewrite app_nil_r in E; now subst ops|now apply (H1 b p l)].
Qed.
Lemma possible_dec ops o : possible ops o \/ ~ possible ops o.
Proof.
  destruct o as [st fn ps|x]; cbn [possible].
  - destruct (params_of ops (table_name st fn)); [right; discriminate|now left].
  - destruct (params_of ops (f_table x)) as [ps|]; [|right; intros (? & [=] & _)]. destruct (Forall_dec (fun k => In k ps) (fun k => in_dec string_dec k ps) (map fst (f_values x))) as [D|D]; rewrite Forall_forall in D; [left; eauto|right; intros (? & [= <-] & H); auto].
Qed.
Lemma run_known f32 ops : (forall o, In o ops -> proper o) ->
  (in_order ops -> exists f, run f32 [] ops = Ok f) /\ (forall f, run f32 [] ops = Ok f -> in_order ops /\ known f32 ops f /\ forall n, params_of ops n = None -> fits_of ops n = []).
Proof.
  induction ops as [|o ops IH] using rev_ind; intros Pr.
  - split; [intros _; exists []; reflexivity|]. intros f [= <-]. split; [intros [|] p a E; discriminate|]. split; [intros n; reflexivity|reflexivity].
  - destruct IH as [IH1 IH2]; [intros p Hp; apply Pr; apply in_or_app; now left|]. split.
    + intros H. apply in_order_snoc in H as [H1 H2]. destruct (IH1 H1) as (f & E). destruct (IH2 f E) as (_ & K & Em). destruct (proj1 (step_known f32 ops o f Pr K Em) H2) as (f' & E' & K'). exists f'. rewrite run_app, E. cbn [rbind run]. now rewrite E'.
    + intros f' H. rewrite run_app in H. destruct (run f32 [] ops) as [f|e] eqn:E; [|discriminate]. cbn [rbind run] in H. destruct (IH2 f eq_refl) as (I & K & Em). destruct (step_known f32 ops o f Pr K Em) as [S1 S2]. destruct (possible_dec ops o) as [P|P].
      * destruct (S1 P) as (f'' & E' & K'). rewrite E' in H. injection H as ->. split; [now apply in_order_snoc|]. split; [exact K'|]. intros n. rewrite params_app, fits_app. destruct (params_of ops n) eqn:En; [discriminate|]. rewrite (Em n En). destruct o as [st fn ps|x]; [reflexivity|]. intros _. cbn [fits_of flat_map app]. destruct (String.eqb_spec (f_table x) n) as [<-|]; [|reflexivity]. destruct P as (ps & Hp & _). congruence.
      * destruct (S2 P) as (e & E'). rewrite E' in H. discriminate.
Qed.
(** ** C85: a history of a file works exactly when every step of it is possible *)
Theorem C85_works f32 ops : (forall o, In o ops -> proper o) -> ((exists f, run f32 [] ops = Ok f) <-> in_order ops).
Proof. intros Pr. destruct (run_known f32 ops Pr) as [H1 H2]. split; [intros (f & E); now apply (H2 f)|assumption]. Qed.
Print Assumptions C85_works.

Lemma read_parameters f32 ps x names : (forall k, In k names -> In k ps) -> 
  parameters_and_errors (pairs ps) (snd (row_of f32 ps x)) names = Ok (map (fun k => (k, Num (value_read f32 x k))) names, map (fun k => (k, Num (error_read f32 x k))) names).
Proof.
  intros H. unfold parameters_and_errors. rewrite pairs_names.
  assert (E : rmap (fun p => match index_of p ps with None => Err KeyError | Some i => match nth_error (snd (row_of f32 ps x)) i with None => Err KeyError | Some v => rbind (element v 0) (fun y => rbind (element v 1) (fun e => Ok ((p, y), (p, e)))) end end) names = Ok (map (fun k => ((k, Num (value_read f32 x k)), (k, Num (error_read f32 x k)))) names)).
  { induction names as [|k names IH]; [reflexivity|]. cbn [rmap map]. destruct (index_of_in k ps) as (i & E & Hi); [apply H; now left|]. rewrite E. unfold row_of at 1. cbn [snd]. rewrite nth_error_map, Hi. cbn [option_map]. unfold value_read, error_read. destruct (given k (f_values x)) as [v|]; cbn [cell_of element nth_error rbind]; (rewrite IH; [reflexivity|intros; apply H; now right]). }
  rewrite E. cbn [rbind]. now rewrite !map_map.
Qed.
Lemma read_unknown f32 ps x names : ~ (forall k, In k names -> In k ps) -> parameters_and_errors (pairs ps) (snd (row_of f32 ps x)) names = Err KeyError.
Proof.
  intros H. unfold parameters_and_errors. rewrite pairs_names.
  assert (E : rmap (fun p => match index_of p ps with None => Err KeyError | Some i => match nth_error (snd (row_of f32 ps x)) i with None => Err KeyError | Some v => rbind (element v 0) (fun y => rbind (element v 1) (fun e => Ok ((p, y), (p, e)))) end end) names = Err KeyError).
  { induction names as [|k names IH]; [exfalso; apply H; intros k []|]. cbn [rmap]. destruct (index_of k ps) as [i|] eqn:E; [|reflexivity].
    assert (I : In k ps). { destruct (in_dec string_dec k ps); [assumption|]. apply index_of_none in n. congruence. } destruct (index_of_in k ps I) as (i' & E' & Hi). rewrite E in E'. injection E' as <-. unfold row_of at 1. cbn [snd]. rewrite nth_error_map, Hi. cbn [option_map]. rewrite IH; [|intros C; apply H; intros k' [<-|Hk]; auto]. destruct (given k (f_values x)); reflexivity. }
  now rewrite E.
Qed.
Lemma rmap_readings f32 ps xs names : (forall k, In k names -> In k ps) ->
  rmap (fun r : N * list arr => rbind (parameters_and_errors (pairs ps) (snd r) names) (fun pe => Ok (fst r, pe))) (map (row_of f32 ps) xs) = Ok (map (read_back f32 names) xs).
Proof. intros H. induction xs as [|x xs IH]; [reflexivity|]. cbn [map rmap]. rewrite read_parameters by assumption. cbn [rbind]. rewrite IH. reflexivity. Qed.
(** ** C85: after any history, the reader of a table gives the fits stored in it, in order, with all the parameters of the table *)
Theorem C85_read f32 ops f name ps : (forall o, In o ops -> proper o) -> run f32 [] ops = Ok f -> params_of ops name = Some ps ->
  generator_param_reader f name = Ok (map (read_back f32 ps) (fits_of ops name)).
Proof.
  intros Pr E P. destruct (proj2 (run_known f32 ops Pr) f E) as (_ & K & _). unfold generator_param_reader. rewrite K, P. unfold all_channel_value_reader. cbn [t_cols t_rows state_of]. rewrite pairs_names. apply rmap_readings. auto.
Qed.
Print Assumptions C85_read.
Example C85_ex : let ops := [Create "pmt" "dfunc" ["gain"; "sigma"]; Create "sipm" "dfunc" ["gain"]; Store {| f_table := "FIT_pmt_dfunc"; f_sensor := 3; f_values := [("sigma", (7, 1)); ("gain", (25, 2))] |}; Store {| f_table := "FIT_sipm_dfunc"; f_sensor := 1000; f_values := [("gain", (16, 3))] |}; Store {| f_table := "FIT_pmt_dfunc"; f_sensor := 1; f_values := [("gain", (30, 4))] |}]%string in
  (forall o, In o ops -> proper o) /\ params_of ops "FIT_pmt_dfunc" = Some ["gain"; "sigma"]%string /\ exists f, run (fun x => x) [] ops = Ok f /\
  generator_param_reader f "FIT_pmt_dfunc" = Ok [(3%N, ([("gain", Num 25); ("sigma", Num 7)], [("gain", Num 2); ("sigma", Num 1)])); (1%N, ([("gain", Num 30); ("sigma", Num 0)], [("gain", Num 4); ("sigma", Num 0)]))]%string.
Proof.
  cbv zeta. split; [|split; [reflexivity|eexists; split; [reflexivity|reflexivity]]]. intros o [<-|[<-|[<-|[<-|[<-|[]]]]]]; cbn [proper map fst f_values]; repeat (apply NoDup_cons; [cbn; intuition discriminate|]); apply NoDup_nil.
Qed.

(** ** C85: the reader of some parameters *)
Theorem C85_subset f32 ops f name ps names : (forall o, In o ops -> proper o) -> run f32 [] ops = Ok f -> params_of ops name = Some ps ->
  ((forall k, In k names -> In k ps) -> subset_param_reader f name names = Ok (map (read_back f32 names) (fits_of ops name))) /\
  (~ (forall k, In k names -> In k ps) -> fits_of ops name <> [] -> subset_param_reader f name names = Err KeyError).
Proof.
  intros Pr E P. destruct (proj2 (run_known f32 ops Pr) f E) as (_ & K & _). unfold subset_param_reader. rewrite K, P. unfold all_channel_value_reader. cbn [t_cols t_rows state_of]. split; [apply rmap_readings|].
  intros H N. destruct (fits_of ops name) as [|x xs]; [contradiction|]. cbn [map rmap]. now rewrite read_unknown.
Qed.
Print Assumptions C85_subset.
(** ** C85: without the table, both stop the program *)
Theorem C85_no_table f32 ops f name names : (forall o, In o ops -> proper o) -> run f32 [] ops = Ok f -> params_of ops name = None ->
  generator_param_reader f name = Err Exit /\ subset_param_reader f name names = Err Exit.
Proof. intros Pr E P. destruct (proj2 (run_known f32 ops Pr) f E) as (_ & K & _). unfold generator_param_reader, subset_param_reader. rewrite K, P. auto. Qed.
Print Assumptions C85_no_table.
Example C85_subset_ex : let ops := [Create "pmt" "dfunc" ["gain"; "sigma"]; Store {| f_table := "FIT_pmt_dfunc"; f_sensor := 3; f_values := [("sigma", (7, 1)); ("gain", (25, 2))] |}]%string in
  exists f, run (fun x => x) [] ops = Ok f /\ subset_param_reader f "FIT_pmt_dfunc" ["sigma"%string] = Ok [(3%N, ([("sigma"%string, Num 7)], [("sigma"%string, Num 1)]))] /\
  subset_param_reader f "FIT_pmt_dfunc" ["mu"%string] = Err KeyError /\ params_of ops "FIT_sipm_dfunc" = None.
Proof. eexists. split; [reflexivity|]. repeat split; reflexivity. Qed.

Lemma filter_map_rows f32 ps xs c : filter (fun r : N * list arr => N.eqb (fst r) c) (map (row_of f32 ps) xs) = map (row_of f32 ps) (filter (fun x => N.eqb (f_sensor x) c) xs).
Proof. induction xs as [|x xs IH]; [reflexivity|]. cbn [map filter]. cbn [row_of fst]. destruct (N.eqb (f_sensor x) c); cbn [map]; now rewrite IH. Qed.
(** ** C85: the reader of one sensor gives its fit when there is exactly one, and stops the program otherwise *)
Theorem C85_single f32 ops f name ps t names c : (forall o, In o ops -> proper o) -> run f32 [] ops = Ok f -> params_of ops name = Some ps -> find_table name f = Some t -> (forall k, In k names -> In k ps) ->
  (forall x, filter (fun x => N.eqb (f_sensor x) c) (fits_of ops name) = [x] -> single_channel_value_reader c t names = Ok (snd (read_back f32 names x))) /\
  (llength (filter (fun x => N.eqb (f_sensor x) c) (fits_of ops name)) <> 1%nat -> single_channel_value_reader c t names = Err Exit).
Proof.
  intros Pr E P T H. destruct (proj2 (run_known f32 ops Pr) f E) as (_ & K & _). rewrite K, P in T. injection T as <-. unfold single_channel_value_reader. cbn [t_cols t_rows state_of]. rewrite filter_map_rows. split.
  - intros x ->. cbn [map]. now rewrite read_parameters.
  - intros L. destruct (filter (fun x => N.eqb (f_sensor x) c) (fits_of ops name)) as [|x [|y l]]; [reflexivity|cbn in L; congruence|reflexivity].
Qed.
Print Assumptions C85_single.
Example C85_single_ex : let ops := [Create "pmt" "dfunc" ["gain"]; Store {| f_table := "FIT_pmt_dfunc"; f_sensor := 3; f_values := [("gain", (25, 2))] |}; Store {| f_table := "FIT_pmt_dfunc"; f_sensor := 1; f_values := [("gain", (5, 2))] |}; Store {| f_table := "FIT_pmt_dfunc"; f_sensor := 3; f_values := [("gain", (26, 2))] |}]%string in
  exists f t, run (fun x => x) [] ops = Ok f /\ find_table "FIT_pmt_dfunc" f = Some t /\ single_channel_value_reader 1 t ["gain"%string] = Ok ([("gain"%string, Num 5)], [("gain"%string, Num 2)]) /\ single_channel_value_reader 3 t ["gain"%string] = Err Exit.
Proof. eexists. eexists. repeat split; reflexivity. Qed.

(** ** C85: a fit with an unknown parameter is refused and adds no row *)
Theorem C85_refused f32 ops f x ps : (forall o, In o ops -> proper o) -> run f32 [] ops = Ok f -> params_of ops (f_table x) = Some ps -> ~ (forall k, In k (map fst (f_values x)) -> In k ps) ->
  exists f', store_channel_fit f32 f (f_table x) (f_sensor x) (map (fun kv => (fst kv, Vec [fst (snd kv); snd (snd kv)])) (f_values x)) = (f', Err KeyError) /\ forall name, generator_param_reader f' name = generator_param_reader f name.
Proof.
  intros Pr E P H. destruct (proj2 (run_known f32 ops Pr) f E) as (_ & K & _). unfold store_channel_fit. pose proof (K (f_table x)) as T. rewrite P in T. rewrite T. unfold store_fit_values. cbn [t_cols t_row t_rows state_of]. destruct (set_items_bad f32 ps (f_values x) (snd (0%N, defaults (pairs ps))) H) as (row' & E'). unfold cells in E'. rewrite E'.
  eexists. split; [reflexivity|]. intros name. unfold generator_param_reader. rewrite find_put. destruct (String.eqb_spec name (f_table x)) as [->|N]; [|reflexivity]. rewrite T. reflexivity.
Qed.
Print Assumptions C85_refused.
(** A program that goes on after that exception finds the values of the refused fit in the next row: here sensor 2 is read with the gain of sensor 1 *)
Theorem C85_stale_refuted : let f0 := [("FIT_pmt_dfunc"%string, {| t_cols := pairs ["gain"; "sigma"]%string; t_rows := []; t_row := (0%N, [Vec [0; 0]; Vec [0; 0]]) |})] in
  channel_param_writer [] "pmt" "dfunc" ["gain"; "sigma"]%string None = Ok f0 /\
  let (f1, r1) := store_channel_fit (fun x => x) f0 "FIT_pmt_dfunc" 1 [("gain", Vec [25; 2]); ("mu", Vec [1; 1])]%string in
  let (f2, r2) := store_channel_fit (fun x => x) f1 "FIT_pmt_dfunc" 2 [("sigma", Vec [7; 1])]%string in
  r1 = Err KeyError /\ r2 = Ok tt /\ generator_param_reader f2 "FIT_pmt_dfunc" = Ok [(2%N, ([("gain", Num 25); ("sigma", Num 7)], [("gain", Num 2); ("sigma", Num 1)]))]%string.
Proof. repeat split; reflexivity. Qed.
Print Assumptions C85_stale_refuted.
(** With a covariance, the reader gives the first rows of the matrix as its value and its error *)
Theorem C85_covariance_refuted : exists f0 f1, channel_param_writer [] "pmt" "dfunc" ["gain"]%string (Some (3, 3)%nat) = Ok f0 /\
  store_channel_fit (fun x => x) f0 "FIT_pmt_dfunc" 1 [("gain", Vec [25; 2]); ("covariance", Mat [[1; 2; 3]; [4; 5; 6]; [7; 8; 9]])]%string = (f1, Ok tt) /\
  generator_param_reader f1 "FIT_pmt_dfunc" = Ok [(1%N, ([("gain", Num 25); ("covariance", Row [1; 2; 3])], [("gain", Num 2); ("covariance", Row [4; 5; 6])]))]%string.
Proof. eexists. eexists. repeat split; reflexivity. Qed.
Print Assumptions C85_covariance_refuted.
