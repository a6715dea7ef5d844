(** C30, C31, C51, C58: configuration files, type checks, event ranges and input files *)
From Verif Require Import Base ConfigModel ConfigSpec ConfigProofs.
From Verif Require DataflowSpec DataflowProps.
Local Open Scope string_scope.
Local Open Scope list_scope.

(** ** C30 *)
Definition cli_events (cli : list (string * option pyval)) : list event :=
  map (fun kv => Assigned (fst kv) (snd kv) "<command line>") (given cli).

Theorem C30_last_assignment_wins files builtins expand fuel file cli c :
  configure files builtins expand fuel file cli = Some (Ok c) ->
  exists body h, files (expand (expand file)) = Some body /\ runs files builtins expand (expand (expand file)) body [] h /\
  let all := h ++ cli_events cli in
  forall k, lookup (cdata c) k = value_after all k /\
            (forall f, file_after all k = Some f -> lookup (cfile c) k = Some f) /\
            (match lookup (chist c) k with Some l => l | None => [] end) = overridden (story k all).
Proof.
  unfold configure, read_config_file. destruct (read_file files builtins expand fuel (expand file) empty_config) as [[c0|]|] eqn:E; try discriminate.
  intros H. injection H as <-. destruct (read_sound files builtins expand fuel _ _ _ [] state_of_empty E) as (body & h & Ef & R & Hs & _).
  exists body, h. split; [assumption|]. split; [assumption|]. cbv zeta. intros k.
  destruct (add_cli_state _ _ (given cli) Hs) as [H1 H2 H3]. cbn [app] in *. fold (cli_events cli) in *. split; [apply H1|]. split; [|apply H3].
  intros f Hf. rewrite H2; [assumption|]. rewrite value_file. congruence.
Qed.
Print Assumptions C30_last_assignment_wins.

(** a configuration that can be executed is read, whatever the depth of its inclusions *)
Theorem C30_reading_succeeds files builtins expand file body h cli :
  files (expand (expand file)) = Some body -> runs files builtins expand (expand (expand file)) body [] h ->
  exists fuel c, forall more, (fuel <= more)%nat -> configure files builtins expand more file cli = Some (Ok c).
Proof.
  intros Ef R. destruct (exec_complete files builtins expand _ _ _ _ R (push_file empty_config (expand (expand file)))) as (fuel & c & E).
  - eapply state_of_stack; [..|exact state_of_empty]; reflexivity.
  - reflexivity.
  - exists (S fuel), (add_cli (pop_file c) (given cli)). intros more Hm. unfold configure, read_config_file.
    assert (Er : read_file files builtins expand (S fuel) (expand file) empty_config = Some (Ok (pop_file c))) by (cbn [read_file]; now rewrite Ef, E).
    now rewrite (read_mono files builtins expand _ _ Hm _ _ _ Er).
Qed.
Print Assumptions C30_reading_succeeds.

Lemma value_after_app h g k : value_after g k <> None -> value_after (h ++ g) k = value_after g k.
Proof.
  unfold value_after, story. rewrite filter_app, rev_app_distr. destruct (rev (filter _ g)) as [|[]]; cbn; easy.
Qed.
Lemma file_after_app h g k : file_after g k <> None -> file_after (h ++ g) k = file_after g k.
Proof.
  unfold file_after, story. rewrite filter_app, rev_app_distr. destruct (rev (filter _ g)) as [|[]]; cbn; easy.
Qed.

Lemma cli_story cli k v : NoDup (map fst cli) -> In (k, Some v) cli -> story k (cli_events cli) = [Assigned k v "<command line>"].
Proof.
  induction cli as [|[k0 o] cli IH]; [easy|]. cbn [map fst]. intros N [E|Hin].
  - injection E as -> ->. inversion N as [|? ? N1 N2]; subst. unfold cli_events, given. cbn [flat_map fst snd map app]. cbn [story filter about]. unfold story. cbn [filter about]. rewrite String.eqb_refl.
    f_equal. change (story k (cli_events cli) = []). clear -N1. induction cli as [|[k1 o1] cli IH]; [reflexivity|]. cbn [map fst In] in N1.
    unfold cli_events, given, story in *. cbn [flat_map fst snd]. destruct o1; cbn [app map filter about fst snd]; [destruct (String.eqb_spec k k1); [subst; tauto|]|]; apply IH; tauto.
  - inversion N as [|? ? N1 N2]; subst. specialize (IH N2 Hin). unfold cli_events, given, story in *. cbn [flat_map fst snd].
    destruct o as [w|]; cbn [app map filter about fst snd]; [|exact IH]. destruct (String.eqb_spec k k0) as [<-|]; [|exact IH].
    exfalso. apply N1. apply in_map_iff. exists (k, Some v). auto.
Qed.

(** an option given in the command line has that value whatever the files say, and the values of the files are in its history *)
Theorem C30_command_line_wins files builtins expand fuel file cli c k v :
  NoDup (map fst cli) -> In (k, Some v) cli -> configure files builtins expand fuel file cli = Some (Ok c) ->
  lookup (cdata c) k = Some v /\ lookup (cfile c) k = Some "<command line>".
Proof.
  intros N Hin E. destruct (C30_last_assignment_wins _ _ _ _ _ _ _ E) as (body & h & _ & _ & H). destruct (H k) as (H1 & H2 & _).
  pose proof (cli_story cli k v N Hin) as Es. assert (Ev : value_after (cli_events cli) k = Some v) by (unfold value_after; now rewrite Es).
  assert (Ef : file_after (cli_events cli) k = Some "<command line>") by (unfold file_after; now rewrite Es). split.
  - rewrite H1, value_after_app; congruence.
  - apply H2. rewrite file_after_app; congruence.
Qed.
Print Assumptions C30_command_line_wins.

(** and one that is not given keeps the value of the files *)
Theorem C30_files_otherwise files builtins expand fuel file cli c k :
  (forall v, ~ In (k, Some v) cli) -> configure files builtins expand fuel file cli = Some (Ok c) ->
  exists body h, files (expand (expand file)) = Some body /\ runs files builtins expand (expand (expand file)) body [] h /\
  lookup (cdata c) k = value_after h k.
Proof.
  intros N E. destruct (C30_last_assignment_wins _ _ _ _ _ _ _ E) as (body & h & Ef & R & H). exists body, h. split; [assumption|]. split; [assumption|].
  destruct (H k) as (-> & _). assert (Es : story k (cli_events cli) = []).
  { clear -N. induction cli as [|[k0 o] cli IH]; [reflexivity|]. unfold cli_events, given, story in *. cbn [flat_map fst snd].
    assert (N' : forall v, ~ In (k, Some v) cli) by (intros v Hv; apply (N v); now right).
    destruct o as [w|]; cbn [app map filter about fst snd]; [|auto]. destruct (String.eqb_spec k k0) as [<-|]; [|auto]. exfalso. apply (N w). now left. }
  unfold value_after, story in *. now rewrite filter_app, Es, app_nil_r.
Qed.
Print Assumptions C30_files_otherwise.

(** without deletions the history is the list of all the previous assignments, in order *)
Definition assigned_value (e : event) : list (pyval * string) := match e with Assigned _ v f => [(v, f)] | Deleted _ => [] end.
Theorem C30_history_lists_previous_values files builtins expand fuel file cli c k :
  configure files builtins expand fuel file cli = Some (Ok c) ->
  exists body h, files (expand (expand file)) = Some body /\ runs files builtins expand (expand (expand file)) body [] h /\
  ((forall k', ~ In (Deleted k') h) ->
   (match lookup (chist c) k with Some l => l | None => [] end) = removelast (flat_map assigned_value (story k (h ++ cli_events cli)))).
Proof.
  intros E. destruct (C30_last_assignment_wins _ _ _ _ _ _ _ E) as (body & h & Ef & R & H). exists body, h. split; [assumption|]. split; [assumption|].
  intros ND. destruct (H k) as (_ & _ & ->). 
  assert (ND' : forall e, In e (story k (h ++ cli_events cli)) -> exists k v f, e = Assigned k v f).
  { intros e He. unfold story in He. apply filter_In in He. destruct He as [He _]. apply in_app_iff in He. destruct He as [He|He].
    - destruct e as [k0 v0 f0|k0]; [eauto|]. exfalso. now apply (ND k0).
    - unfold cli_events in He. apply in_map_iff in He. destruct He as (kv & <- & _). eauto. }
  induction (story k (h ++ cli_events cli)) as [|e l IH]; [reflexivity|]. destruct (ND' e (or_introl eq_refl)) as (k0 & v0 & f0 & ->).
  cbn [overridden flat_map assigned_value app]. destruct l as [|e1 l]; [reflexivity|].
  destruct (ND' e1 (or_intror (or_introl eq_refl))) as (k1 & v1 & f1 & ->). rewrite IH by (intros; apply ND'; now right). reflexivity.
Qed.
Print Assumptions C30_history_lists_previous_values.

(** a deletion breaks that chain: the deleted value is in no history *)
Theorem C30_deleted_value_not_in_history_refuted :
  exists files h body, files "main" = Some body /\ runs files [] (fun s => s) "main" body [] h /\
    flat_map assigned_value (story "a" h) = [(VInt 1, "main"); (VInt 2, "main")] /\
    exists c, configure files [] (fun s => s) 5 "main" [] = Some (Ok c) /\ lookup (cdata c) "a" = Some (VInt 2) /\ lookup (chist c) "a" = None.
Proof.
  set (const := fun z => {| reads := []; compute := fun _ => Ok (VInt z) |}).
  set (body := [Assign "a" (const 1%Z); Delete "a"; Assign "a" (const 2%Z)]).
  exists (fun f => if String.eqb f "main" then Some body else None).
  exists [Assigned "a" (VInt 1) "main"; Deleted "a"; Assigned "a" (VInt 2) "main"], body. split; [reflexivity|]. split.
  - eapply runs_assign; [constructor|reflexivity|]. apply runs_delete; [vm_compute; discriminate|]. eapply runs_assign; [constructor|reflexivity|]. constructor.
  - split; [reflexivity|]. eexists. split; [vm_compute; reflexivity|]. split; reflexivity.
Qed.

(** a file with an inclusion, an override, an expression and a command line option *)
Definition demo_files (f : string) : option (list stmt) :=
  if String.eqb f "base.conf" then Some [Assign "nsamp" {| reads := []; compute := fun _ => Ok (VInt 40) |}; Assign "run" {| reads := []; compute := fun _ => Ok (VInt 1) |}]
  else if String.eqb f "city.conf" then Some [Include "base.conf"; Assign "run" {| reads := ["nsamp"; "one"]; compute := fun vs => match vs with [VInt a; VInt b] => Ok (VInt (a + b)) | _ => Err TypeError end |}]
  else None.
Example C30_demo : exists c, configure demo_files [("one", VInt 1)] (fun s => s) 5 "city.conf" [("run", Some (VInt 7)); ("file_out", None)] = Some (Ok c) /\
  lookup (cdata c) "run" = Some (VInt 7) /\ lookup (cdata c) "nsamp" = Some (VInt 40) /\ lookup (cfile c) "nsamp" = Some "base.conf" /\
  lookup (chist c) "run" = Some [(VInt 1, "base.conf"); (VInt 41, "city.conf")] /\ cstack c = ["<none>"].
Proof. eexists. split; [vm_compute; reflexivity|]. repeat split; reflexivity. Qed.

(** ** C31: types *)
Lemma pytype_ind' (P : pytype -> Prop) :
  P TBool -> P TInt -> P TFloat -> (forall c, P (TClass c)) -> (forall c, P (TBare c)) ->
  (forall l, (forall t, In t l -> P t) -> P (TUnion l)) -> (forall t, P t -> P (TSeqOf t)) ->
  (forall l, (forall t, In t l -> P t) -> P (TTupleOf l)) -> (forall k v, P k -> P v -> P (TMapOf k v)) -> (forall c, P (TGen c)) ->
  forall t, P t.
Proof.
  intros H1 H2 H3 H4 H5 H6 H7 H8 H9 H10. fix IH 1. intros [| | |c|c|l|t|l|k v|c]; [exact H1|exact H2|exact H3|apply H4|apply H5| |apply H7, IH| |apply H9; apply IH|apply H10].
  - apply H6. induction l as [|t l IHl]; [intros ? []|]. intros u [<-|Hu]; [apply IH|now apply IHl].
  - apply H8. induction l as [|t l IHl]; [intros ? []|]. intros u [<-|Hu]; [apply IH|now apply IHl].
Qed.

Lemma instance_of_iff v c : instance_of v c = true <-> In c (classes v) \/ c = "object".
Proof.
  unfold instance_of. rewrite orb_true_iff, existsb_exists, String.eqb_eq. split; intros [H|H]; auto.
  - destruct H as (x & Hx & E). apply String.eqb_eq in E. subst. now left.
  - left. exists c. split; [assumption|apply String.eqb_refl].
Qed.

Lemma all_r_true {A} (f : A -> result bool) l : all_r f l = Ok true <-> forall x, In x l -> f x = Ok true.
Proof.
  induction l as [|a l IH]; cbn [all_r]; [split; [easy|reflexivity]|]. destruct (f a) as [[]|] eqn:E.
  - rewrite IH. split; [intros H x [<-|Hx]; auto|intros H x Hx; apply H; now right].
  - split; [discriminate|]. intros H. rewrite (H a (or_introl eq_refl)) in E. discriminate.
  - split; [discriminate|]. intros H. rewrite (H a (or_introl eq_refl)) in E. discriminate.
Qed.
Lemma all_r_total {A} (f : A -> result bool) l : (forall x, In x l -> exists b, f x = Ok b) -> exists b, all_r f l = Ok b.
Proof.
  induction l as [|a l IH]; cbn [all_r]; intros H; [eauto|]. destruct (H a (or_introl eq_refl)) as [[] ->]; [|eauto]. apply IH. intros; apply H. now right.
Qed.

Lemma iterate_elements v : iterate v = elements v.
Proof. destruct v; try reflexivity. cbn [iterate elements]. f_equal. induction s as [|a s IH]; cbn; [reflexivity|]. now rewrite IH. Qed.
(** a value that passes the check has the declared type *)
Theorem C31_accepted_values_conform t : forall v, type_check t v = Ok true -> conforms v t.
Proof.
  induction t as [| | |c|c|ts IH|t IH|ts IH|k w IHk IHw|c] using pytype_ind'; intros v; cbn [type_check].
  - destruct v; try discriminate; intros _; constructor.
  - destruct v; try discriminate; intros _; constructor.
  - destruct v; try discriminate; intros _; constructor.
  - intros E. constructor. apply instance_of_iff. congruence.
  - intros E. injection E as E. apply orb_true_iff in E. destruct E as [E|E]; [|constructor; now apply instance_of_iff].
    apply andb_true_iff in E. destruct E as [E1 E2]. apply String.eqb_eq in E1. subst. destruct v; try discriminate. apply c_array.
  - induction ts as [|t ts IHts]; [discriminate|]. destruct (type_check t v) as [[]|] eqn:E; [intros _|intros E'|discriminate].
    + eapply c_union; [now left|]. apply IH; [now left|assumption].
    + assert (C : conforms v (TUnion ts)) by (apply IHts; [intros; apply IH; [now right|assumption]|exact E']). inversion C; subst. eapply c_union; [right; eassumption|assumption].
  - rewrite iterate_elements. destruct (elements v) as [l|] eqn:E; [|discriminate]. rewrite all_r_true. intros H. eapply c_seq; [exact E|]. auto.
  - rewrite iterate_elements. destruct (elements v) as [l|] eqn:E; [|discriminate]. intros H. eapply c_tuple; [exact E|]. clear E v. revert ts IH H.
    induction l as [|x l IHl]; intros ts IH H n y t Hy Ht; [destruct n; discriminate|]. destruct ts as [|t0 ts]; [destruct n; discriminate|].
    destruct (type_check t0 x) as [[]|] eqn:Ex; try discriminate. destruct n as [|n]; cbn in Hy, Ht.
    + injection Hy as <-. injection Ht as <-. apply IH; [now left|assumption].
    + eapply (IHl ts); [|exact H|exact Hy|exact Ht]. intros; apply IH; [now right|assumption].
  - destruct v; cbn [items]; try discriminate. rewrite all_r_true. intros H. constructor. intros a b Hab. specialize (H _ Hab). cbn [fst snd] in H.
    unfold and_r in H. destruct (type_check k a) as [[]|] eqn:Ea; try discriminate. split; [now apply IHk|now apply IHw].
  - intros E. constructor. apply instance_of_iff. congruence.
Qed.
Print Assumptions C31_accepted_values_conform.

Lemma can_look_total t : forall v, can_look t v -> exists b, type_check t v = Ok b.
Proof.
  induction t as [| | |c|c|ts IH|t IH|ts IH|k w IHk IHw|c] using pytype_ind'; intros v; cbn [type_check can_look]; try (intros _; eexists; reflexivity).
  - induction ts as [|t ts IHts]; [intros _; eexists; reflexivity|]. intros [H1 H2]. destruct (IH t (or_introl eq_refl) v H1) as [[] E]; rewrite E; [eexists; reflexivity|].
    apply IHts; [intros; apply IH; [now right|assumption]|assumption].
  - rewrite iterate_elements. destruct (elements v) as [l|]; [|easy]. intros H. apply all_r_total. auto.
  - rewrite iterate_elements. destruct (elements v) as [l|]; [|easy]. clear v. revert ts IH. induction l as [|x l IHl]; intros ts IH H; [destruct ts; eexists; reflexivity|]. destruct ts as [|t ts]; [eexists; reflexivity|].
    destruct H as [H1 H2]. destruct (IH t (or_introl eq_refl) x H1) as [[] E]; rewrite E; [|eexists; reflexivity]. apply IHl; [intros; apply IH; [now right|assumption]|assumption].
  - destruct v; try easy. cbn [items]. intros H. apply all_r_total. intros [a b] Hab. destruct (H a b Hab) as [Ha Hb]. cbn [fst snd].
    destruct (IHk a Ha) as [[] E]; rewrite E; cbn [and_r]; [auto|eexists; reflexivity].
Qed.

(** and a value with the declared type passes the check if it can be looked into *)
Theorem C31_conforming_values_accepted t : forall v, can_look t v -> conforms v t -> type_check t v = Ok true.
Proof.
  induction t as [| | |c|c|ts IH|t IH|ts IH|k w IHk IHw|c] using pytype_ind'; intros v L C; cbn [type_check]; inversion C; subst; try reflexivity.
  - f_equal. now apply instance_of_iff.
  - f_equal. apply orb_true_iff. right. now apply instance_of_iff.
  - cbn [can_look] in L. match goal with H : In _ ts, K : conforms _ _ |- _ => revert H K end. intros Hin K. clear C. induction ts as [|t0 ts IHts]; [easy|].
    destruct L as [L1 L2]. destruct (type_check t0 v) as [[]|] eqn:E.
    + reflexivity.
    + destruct Hin as [->|Hin]; [rewrite (IH t (or_introl eq_refl) v L1 K) in E; discriminate|]. apply IHts; [intros; apply IH; [now right|assumption..]|assumption..].
    + destruct (can_look_total t0 v L1) as [b Eb]. congruence.
  - rewrite iterate_elements. cbn [can_look] in L. match goal with H : elements v = _ |- _ => rewrite H in * end. apply all_r_true. auto.
  - rewrite iterate_elements. cbn [can_look] in L. match goal with H : elements v = _, K : forall n x t, _ |- _ => rewrite H in *; revert K end. intros K. clear C. revert ts IH L K.
    match goal with H : elements v = Some ?l |- _ => clear H; induction l as [|x l IHl] end; intros ts IH L K; [destruct ts; reflexivity|]. destruct ts as [|t ts]; [reflexivity|].
    destruct L as [L1 L2]. rewrite (IH t (or_introl eq_refl) x L1 (K 0%nat x t eq_refl eq_refl)). apply IHl; [intros; apply IH; [now right|assumption..]|assumption|].
    intros n y u Hy Hu. exact (K (S n) y u Hy Hu).
  - cbn [items]. apply all_r_true. intros [a b] Hab. cbn [fst snd]. cbn [can_look] in L. destruct (L a b Hab) as [La Lb].
    match goal with H : forall a b, In (a, b) l -> _ |- _ => destruct (H a b Hab) as [Ca Cb] end. rewrite (IHk a La Ca). cbn [and_r]. auto.
  - f_equal. now apply instance_of_iff.
Qed.
Print Assumptions C31_conforming_values_accepted.

(** None is not accepted for an Optional tuple: the check fails with TypeError instead of trying the other option *)
Definition optional_tuple : pytype := TUnion [TTupleOf [TFloat; TFloat; TFloat]; TClass "NoneType"].
Theorem C31_none_for_optional_tuple_refuted : conforms VNone optional_tuple /\ type_check optional_tuple VNone = Err TypeError.
Proof. split; [|reflexivity]. eapply c_union; [right; now left|]. constructor. left. now left. Qed.

(** the length of a tuple is not checked: a pair with anything in second place is an event range *)
Definition event_range_type : pytype :=
  TUnion [TTupleOf [TInt]; TTupleOf [TClass "NoneType"]; TTupleOf [TInt; TClass "NoneType"]; TTupleOf [TClass "NoneType"; TInt]; TTupleOf [TInt; TInt]].
Theorem C31_tuple_length_refuted : forall v, type_check event_range_type (VTuple [VInt 3; v]) = Ok true.
Proof. reflexivity. Qed.

(** ** C31: calls *)
Lemma check_keywords_iff ps kw : check_keywords ps kw = Ok tt <->
  forall p, In p ps -> match lookup kw (pname p) with Some v => type_check (ptype p) v = Ok true | None => pdefault p <> None end.
Proof.
  induction ps as [|p ps IH]; cbn [check_keywords]; [split; [easy|reflexivity]|]. split.
  - intros H q [<-|Hq].
    + destruct (lookup kw (pname p)) as [v|]; [destruct (type_check (ptype p) v) as [[]|]; congruence|destruct (pdefault p); congruence].
    + apply IH; [|assumption]. destruct (lookup kw (pname p)) as [v|]; [destruct (type_check (ptype p) v) as [[]|]; congruence|destruct (pdefault p); congruence].
  - intros H. pose proof (H p (or_introl eq_refl)) as Hp. assert (K : check_keywords ps kw = Ok tt) by (apply IH; intros; apply H; now right).
    destruct (lookup kw (pname p)) as [v|]; [now rewrite Hp|]. destruct (pdefault p); [assumption|easy].
Qed.
Lemma bind_rest_ok ps kw : (forall p, In p ps -> lookup kw (pname p) = None -> pdefault p <> None) ->
  exists d, bind_rest ps kw = Ok d /\ map fst d = map pname ps /\
  (NoDup (map pname ps) -> forall p, In p ps -> lookup d (pname p) = match lookup kw (pname p) with Some v => Some v | None => pdefault p end).
Proof.
  induction ps as [|p ps IH]; cbn [bind_rest]; intros H; [exists []; split; [reflexivity|split; [reflexivity|easy]]|].
  destruct IH as (d & E & M & L); [intros; apply H; [now right|assumption]|]. rewrite E. cbn [rbind].
  destruct (match lookup kw (pname p) with Some v => Some v | None => pdefault p end) as [v|] eqn:Ev.
  - eexists. split; [reflexivity|]. split; [cbn; now rewrite M|]. cbn [map]. intros N q Hq. inversion N as [|? ? N1 N2]; subst. cbn [lookup].
    destruct Hq as [<-|Hq]; [rewrite String.eqb_refl; congruence|]. destruct (String.eqb_spec (pname q) (pname p)) as [C|_]; [exfalso; apply N1; rewrite <- C; now apply in_map|auto].
  - exfalso. specialize (H p (or_introl eq_refl)). destruct (lookup kw (pname p)) eqn:E1; [congruence|]. now apply H.
Qed.

Definition passing_call (ps : list param) (kw : dict pyval) : Prop :=
  (forall k v, lookup kw k = Some v -> exists p, In p ps /\ pname p = k) /\
  (forall p, In p ps -> match lookup kw (pname p) with Some v => type_check (ptype p) v = Ok true | None => pdefault p <> None end).
Lemma first_call_runs ps kw :
  NoDup (map pname ps) ->
  ((exists args, snd (checked_call true ps [] kw) = Ok args) <-> passing_call ps kw) /\
  forall args, snd (checked_call true ps [] kw) = Ok args ->
    map fst args = map pname ps /\
    forall p, In p ps -> lookup args (pname p) = match lookup kw (pname p) with Some v => Some v | None => pdefault p end.
Proof.
  intros N. cbn [checked_call snd]. unfold compare_signature_to_values, bind_arguments.
  assert (E0 : forall A, (List.length (@nil A) = 0)%nat) by reflexivity. cbn [List.length skipn firstn check_positional].
  assert (Hcp : check_positional ps [] = Ok tt) by (destruct ps; reflexivity). rewrite Hcp. cbn [rbind combine map app].
  replace (List.length ps <? 0)%nat with false by (symmetry; apply Nat.ltb_ge; lia). cbn [combine map].
  set (unk := existsb (fun kv : string * pyval => negb (existsb (fun p => String.eqb (fst kv) (pname p)) ps)) kw).
  assert (Hunk : unk = false <-> forall k v, lookup kw k = Some v -> exists p, In p ps /\ pname p = k).
  { assert (Hkey : (forall k v, lookup kw k = Some v -> exists p, In p ps /\ pname p = k) <-> (forall k, In k (map fst kw) -> exists p, In p ps /\ pname p = k)).
    { split.
      - intros H k Hk. destruct (lookup kw k) as [v|] eqn:E; [eauto|]. apply lookup_none in E. contradiction.
      - intros H k v E. apply H. apply in_map_iff. exists (k, v). split; [reflexivity|now apply lookup_in]. }
    rewrite Hkey. unfold unk. split.
    - intros H k Hk. apply in_map_iff in Hk. destruct Hk as ([k' v] & <- & Hin). destruct (existsb (fun p => String.eqb k' (pname p)) ps) eqn:Ex.
      + apply existsb_exists in Ex. destruct Ex as (p & Hp & Ep). apply String.eqb_eq in Ep. exists p. auto.
      + exfalso. assert (T : existsb (fun kv : string * pyval => negb (existsb (fun p => String.eqb (fst kv) (pname p)) ps)) kw = true); [|congruence].
        apply existsb_exists. exists (k', v). cbn [fst]. now rewrite Ex.
    - intros H. apply not_true_is_false. intros T. apply existsb_exists in T. destruct T as ([k v] & Hin & Hx). cbn [fst] in Hx. apply negb_true_iff in Hx.
      destruct (H k) as (p & Hp & Ep); [apply in_map_iff; exists (k, v); auto|]. assert (T : existsb (fun p => String.eqb k (pname p)) ps = true); [|congruence].
      apply existsb_exists. exists p. split; [assumption|]. apply String.eqb_eq. congruence. }
  assert (Hok : passing_call ps kw -> exists d, bind_rest ps kw = Ok d).
  { intros [_ H]. destruct (bind_rest_ok ps kw) as (d & E & _); [|eauto]. intros p Hp E. specialize (H p Hp). rewrite E in H. exact H. }
  split.
  - split.
    + intros (args & H). destruct (check_keywords ps kw) as [[]|] eqn:Ec; [|discriminate]. cbn [rbind] in H. destruct unk eqn:Eu; [discriminate|].
      split; [now apply Hunk|]. now apply check_keywords_iff.
    + intros G. destruct (Hok G) as (d & Ed). destruct G as [G1 G2]. apply check_keywords_iff in G2. apply Hunk in G1. rewrite G2. cbn [rbind]. rewrite G1, Ed. eexists. reflexivity.
  - intros args H. destruct (check_keywords ps kw) as [[]|] eqn:Ec; [|discriminate]. cbn [rbind] in H. destruct unk; [discriminate|].
    pose proof (proj1 (check_keywords_iff ps kw) Ec) as Ec'. destruct (bind_rest_ok ps kw) as (d & E & M & L).
    { intros p Hp E. specialize (Ec' p Hp). rewrite E in Ec'. exact Ec'. }
    rewrite E in H. injection H as <-. split; [assumption|auto].
Qed.

(** the first call of a checked function runs it only when every argument given is a parameter with a value of the
    declared type and every parameter is given or has a default; it is then run with those values *)
Theorem C31_first_call_runs_only_if_good ps kw args :
  NoDup (map pname ps) -> snd (checked_call true ps [] kw) = Ok args ->
  good_call ps kw /\ map fst args = map pname ps /\
  forall p, In p ps -> lookup args (pname p) = match lookup kw (pname p) with Some v => Some v | None => pdefault p end.
Proof.
  intros N E. destruct (first_call_runs ps kw N) as [[H _] H2]. split; [|now apply H2]. destruct H as [G1 G2]; [eauto|]. split; [assumption|].
  intros p Hp. specialize (G2 p Hp). destruct (lookup kw (pname p)); [now apply C31_accepted_values_conform|assumption].
Qed.
Print Assumptions C31_first_call_runs_only_if_good.

(** and it does run then, if the check can look into the values *)
Theorem C31_good_first_call_runs ps kw :
  NoDup (map pname ps) -> (forall p v, In p ps -> lookup kw (pname p) = Some v -> can_look (ptype p) v) ->
  good_call ps kw -> exists args, snd (checked_call true ps [] kw) = Ok args.
Proof.
  intros N L [G1 G2]. destruct (first_call_runs ps kw N) as [[_ H] _]. apply H. split; [assumption|]. intros p Hp. specialize (G2 p Hp). specialize (L p).
  destruct (lookup kw (pname p)) as [v|]; [|assumption]. apply C31_conforming_values_accepted; auto.
Qed.
Print Assumptions C31_good_first_call_runs.

(** only the first call is checked, even when it was rejected *)
Theorem C31_second_call_unchecked_refuted :
  let ps := [{| pname := "rate"; ptype := TFloat; pdefault := None |}] in let kw := [("rate", VStr "x")] in
  let '(first, r1) := checked_call true ps [] kw in
  r1 = Err ValueError /\ snd (checked_call first ps [] kw) = Ok [("rate", VStr "x")] /\ ~ conforms (VStr "x") TFloat.
Proof. cbn. split; [reflexivity|]. split; [reflexivity|]. intros C. inversion C. Qed.

(** ** C51 *)
Definition sym_all := VSym "EventRange" "all".
Definition sym_last := VSym "EventRange" "last".

Theorem C51_documented_forms :
  event_range None = Ok (VTuple [VNone; VInt 1]) /\
  event_range (Some sym_all) = Ok (VTuple [VNone]) /\
  (forall n, event_range (Some (VInt n)) = Ok (VTuple [VInt n])) /\
  (forall n, event_range (Some (VTuple [VInt n])) = Ok (VTuple [VInt n])) /\
  (forall n m, event_range (Some (VTuple [VInt n; VInt m])) = Ok (VTuple [VInt n; VInt m])) /\
  (forall n, event_range (Some (VTuple [VInt n; sym_last])) = Ok (VTuple [VInt n; VNone])).
Proof. repeat split; reflexivity. Qed.

(** the slice of the events of the input denoted by the arguments of fl.slice *)
Definition slice_arguments (v : pyval) : option (option Z * option Z) :=
  match v with
  | VTuple [VNone] => Some (None, None)
  | VTuple [VInt n] => Some (None, Some n)
  | VTuple [VNone; VInt m] => Some (None, Some m)
  | VTuple [VInt n; VNone] => Some (Some n, None)
  | VTuple [VInt n; VInt m] => Some (Some n, Some m)
  | _ => None
  end.

(** the specification of the user, and the events it denotes *)
Inductive range_spec := AllEvents | FirstN (n : nat) | FromTo (n m : nat) | FromOn (n : nat) | Unspecified.
Definition spec_value (r : range_spec) : option pyval :=
  match r with
  | AllEvents => Some sym_all
  | FirstN n => Some (VInt (Z.of_nat n))
  | FromTo n m => Some (VTuple [VInt (Z.of_nat n); VInt (Z.of_nat m)])
  | FromOn n => Some (VTuple [VInt (Z.of_nat n); sym_last])
  | Unspecified => None
  end.
Definition denoted {A} (r : range_spec) (l : list A) : list A :=
  match r with
  | AllEvents => l
  | FirstN n => firstn n l
  | FromTo n m => firstn (m - n) (skipn n l)
  | FromOn n => skipn n l
  | Unspecified => firstn 1 l
  end.

Lemma window_slice {A} (xs : list A) n (m : option nat) : forall k,
  map snd (filter (fun p => ((n <=? fst p) && match m with Some m => fst p <? m | None => true end)%nat) (combine (seq k (List.length xs)) xs)) =
  let r := skipn (n - k) xs in match m with Some m => firstn (m - Nat.max n k) r | None => r end.
Proof.
  induction xs as [|x xs IH]; intros k; [destruct m; cbn; now rewrite ?firstn_nil, ?skipn_nil, ?firstn_nil|]. cbn [List.length seq combine filter fst]. cbv zeta in *.
  destruct (Nat.leb_spec n k) as [H|H]; cbn [andb].
  - replace (n - k)%nat with 0%nat by lia. cbn [skipn]. replace (Nat.max n k) with k by lia. specialize (IH (S k)). replace (n - S k)%nat with 0%nat in IH by lia.
    replace (Nat.max n (S k)) with (S k) in IH by lia. cbn [skipn] in IH. destruct m as [m|]; [|cbn [map snd]; now rewrite IH].
    destruct (Nat.ltb_spec k m).
    + cbn [map snd]. rewrite IH. replace (m - k)%nat with (S (m - S k))%nat by lia. reflexivity.
    + replace (m - S k)%nat with 0%nat in IH by lia. replace (m - k)%nat with 0%nat by lia. exact IH.
  - rewrite IH. replace (n - k)%nat with (S (n - S k))%nat by lia. cbn [skipn]. destruct m as [m|]; [|reflexivity]. f_equal. lia.
Qed.
Lemma py_slice_window {A} (xs : list A) (a b : option nat) :
  DataflowSpec.py_slice_z (option_map Z.of_nat a) (option_map Z.of_nat b) None xs =
  let r := skipn (match a with Some n => n | None => 0 end) xs in
  match b with Some m => firstn (m - match a with Some n => n | None => 0 end) r | None => r end%nat.
Proof.
  unfold DataflowSpec.py_slice_z. set (n := match a with Some n => n | None => 0%nat end).
  replace (match option_map Z.of_nat a with Some a => a | None => 0%Z end) with (Z.of_nat n) by (destruct a; reflexivity).
  transitivity (map snd (filter (fun p => ((n <=? fst p) && match b with Some m => fst p <? m | None => true end)%nat) (combine (seq 0 (List.length xs)) xs))).
  - f_equal. apply filter_ext. intros [i x]. cbn [fst]. rewrite Z.mod_1_r, Z.eqb_refl, andb_true_r. f_equal.
    + destruct (Z.leb_spec (Z.of_nat n) (Z.of_nat i)), (Nat.leb_spec n i); lia.
    + destruct b as [m|]; [|reflexivity]. cbn [option_map]. destruct (Z.ltb_spec (Z.of_nat i) (Z.of_nat m)), (Nat.ltb_spec i m); lia.
  - rewrite window_slice. cbv zeta. rewrite Nat.sub_0_r, Nat.max_0_r. reflexivity.
Qed.

(** each documented form gives a value of the declared type whose slice (C06) is the events it denotes *)
Theorem C51_denoted_events {A} r (xs : list A) :
  exists er a b, event_range (spec_value r) = Ok er /\ type_check event_range_type er = Ok true /\
    slice_arguments er = Some (a, b) /\ DataflowSpec.py_slice_z a b None xs = denoted r xs.
Proof.
  pose proof (py_slice_window xs) as W. destruct r as [|n|n m|n|].
  - exists (VTuple [VNone]), None, None. do 3 (split; [reflexivity|]). exact (W None None).
  - exists (VTuple [VInt (Z.of_nat n)]), None, (Some (Z.of_nat n)). do 3 (split; [reflexivity|]). cbn [denoted]. rewrite <- (Nat.sub_0_r n) at 2. exact (W None (Some n)).
  - exists (VTuple [VInt (Z.of_nat n); VInt (Z.of_nat m)]), (Some (Z.of_nat n)), (Some (Z.of_nat m)). do 3 (split; [reflexivity|]). exact (W (Some n) (Some m)).
  - exists (VTuple [VInt (Z.of_nat n); VNone]), (Some (Z.of_nat n)), None. do 3 (split; [reflexivity|]). exact (W (Some n) None).
  - exists (VTuple [VNone; VInt 1]), None, (Some (Z.of_nat 1)). do 3 (split; [reflexivity|]). exact (W None (Some 1%nat)).
Qed.
Print Assumptions C51_denoted_events.

(** rejected with ValueError: no values or more than two, [all] in a pair, and a first value [last] *)
Theorem C51_rejected_forms l :
  event_range (Some (VTuple l)) = Err ValueError <->
  (List.length l <> 1 /\ List.length l <> 2)%nat \/ (List.length l = 2%nat /\ In sym_all l) \/ (exists r, l = sym_last :: r).
Proof.
  assert (Hs : forall n v, is_sym n v = true <-> v = VSym "EventRange" n).
  { intros n v. unfold is_sym. destruct v; try (split; [discriminate|congruence]). rewrite andb_true_iff, !String.eqb_eq. split; [intros [-> ->]; reflexivity|]. intros E. now injection E. }
  cbn [event_range snd fst]. assert (Hi : invalid_event_range l = true <-> (List.length l <> 1 /\ List.length l <> 2)%nat \/ (List.length l = 2%nat /\ In sym_all l) \/ (exists r, l = sym_last :: r)).
  { unfold invalid_event_range. rewrite !orb_true_iff, negb_true_iff, orb_false_iff, andb_true_iff, !Nat.eqb_neq, Nat.eqb_eq, existsb_exists.
    assert (A1 : (exists x, In x l /\ is_sym "all" x = true) <-> In sym_all l).
    { split; [intros (x & Hx & E); apply Hs in E; now subst|]. intros H. exists sym_all. split; [assumption|reflexivity]. }
    rewrite A1. assert (A2 : match l with [] => false | e :: _ => is_sym "last" e end = true <-> exists r, l = sym_last :: r).
    { destruct l as [|e l]; [split; [discriminate|now intros []]|]. rewrite Hs. split; [intros ->; eexists; reflexivity|intros [r E]; now injection E]. }
    rewrite A2. tauto. }
  rewrite <- Hi. destruct (invalid_event_range l); [tauto|]. split; [|discriminate]. destruct l as [|a [|b [|c l]]]; try discriminate; [destruct (is_sym "all" a)|destruct (is_sym "last" b)]; discriminate.
Qed.
Print Assumptions C51_rejected_forms.
Example C51_demo : event_range (Some (VTuple [sym_all; VInt 3])) = Err ValueError /\ event_range (Some sym_last) = Err ValueError /\
  event_range (Some (VTuple [VInt 2; sym_last])) = Ok (VTuple [VInt 2; VNone]) /\ denoted (FromOn 2) [10; 11; 12; 13]%Z = [12; 13]%Z.
Proof. repeat split; reflexivity. Qed.

(** ** C31 and C58: what the city runs with *)
Lemma not_before_spec l : forall prefix,
  let u := not_before prefix l in
  NoDup u /\ (forall f, In f u <-> In f l /\ ~ In f prefix) /\
  forall u1 u2 a b, u = u1 ++ a :: u2 -> In b u2 -> exists l1 l2, l = l1 ++ a :: l2 /\ ~ In b l1.
Proof.
  cbv zeta. induction l as [|x l IH]; intros prefix; cbn [not_before].
  - split; [constructor|]. split; [cbn; tauto|]. intros [|? ?]; discriminate.
  - specialize (IH (prefix ++ [x])). destruct IH as (N & M & O).
    destruct (existsb (String.eqb x) prefix) eqn:E.
    + apply existsb_exists in E. destruct E as (y & Hy & Ey). apply String.eqb_eq in Ey. subst y. split; [assumption|]. split.
      * intros f. rewrite M, in_app_iff. cbn. intuition congruence.
      * intros u1 u2 a b Eu Hb. destruct (O u1 u2 a b Eu Hb) as (l1 & l2 & El & Hn). exists (x :: l1), l2. split; [cbn; now f_equal|]. intros [->|C]; [|contradiction].
        assert (Hbu : In b (not_before (prefix ++ [b]) l)) by (rewrite Eu, in_app_iff; cbn; auto). apply M in Hbu. apply (proj2 Hbu). rewrite in_app_iff. cbn. auto.
    + assert (Hx : ~ In x prefix).
      { intros C. assert (T : existsb (String.eqb x) prefix = true); [|congruence]. apply existsb_exists. exists x. split; [assumption|apply String.eqb_refl]. }
      split; [constructor; [|assumption]; rewrite M, in_app_iff; cbn; tauto|]. split.
      * intros f. cbn [In]. rewrite M, in_app_iff. cbn. destruct (String.string_dec x f) as [<-|]; intuition congruence.
      * intros u1 u2 a b Eu Hb. destruct u1 as [|y u1]; cbn [app] in Eu; injection Eu as <- Eu.
        -- exists [], l. split; [reflexivity|easy].
        -- destruct (O u1 u2 a b Eu Hb) as (l1 & l2 & El & Hn). exists (x :: l1), l2. split; [cbn; now f_equal|]. intros [->|C]; [|contradiction].
           assert (Hbu : In b (not_before (prefix ++ [b]) l)) by (rewrite Eu, in_app_iff; cbn; auto). apply M in Hbu. apply (proj2 Hbu). rewrite in_app_iff. cbn. auto.
Qed.

(** the input files, each one once, in the order of the patterns *)
Theorem C58_each_file_once expandvars glob ps kwds args pats :
  NoDup (map pname ps) -> lookup kwds "files_in" = Some (VList (map VStr pats)) ->
  city expandvars glob ps kwds = Ok args ->
  exists u, lookup args "files_in" = Some (VList (map VStr u)) /\
    in_order_of_appearance (flat_map (fun p => glob (expandvars p)) pats) u /\
    forall p, In p pats -> glob (expandvars p) <> [].
Proof.
  intros N Ef. unfold city. rewrite Ef. destruct (lookup kwds "file_out") as [fo|]; [|discriminate]. cbn [iterate].
  assert (Hin : forall fs, input_files expandvars glob (map VStr pats) = Ok fs -> fs = flat_map (fun p => glob (expandvars p)) pats /\ forall p, In p pats -> glob (expandvars p) <> []).
  { clear. induction pats as [|p pats IH]; cbn [map input_files]; intros fs E; [injection E as <-; split; [reflexivity|easy]|]. cbn [expand_value rbind] in E.
    destruct (glob (expandvars p)) as [|g gs] eqn:Eg; [discriminate|]. destruct (input_files expandvars glob (map VStr pats)) as [rest|]; [|discriminate]. injection E as <-.
    destruct (IH rest eq_refl) as [-> H]. split; [cbn [flat_map]; now rewrite Eg|]. intros q [<-|Hq]; [congruence|auto]. }
  destruct (input_files expandvars glob (map VStr pats)) as [fs|]; [|discriminate]. destruct (Hin fs eq_refl) as [-> Hg]. cbn [rbind].
  destruct (expand_value expandvars fo) as [fo'|]; [|discriminate]. cbn [rbind].
  match goal with |- context [event_range ?x] => destruct (event_range x) as [er|]; [|discriminate] end. cbn [rbind]. intros E.
  destruct (C31_first_call_runs_only_if_good _ _ _ N E) as (G & M & V). exists (first_occurrences (flat_map (fun p => glob (expandvars p)) pats)).
  assert (Hk : lookup (store (store (store (filter (fun kv => negb (existsb (String.eqb (fst kv)) control_options)) kwds) "files_in" (VList (map VStr (first_occurrences (flat_map (fun p => glob (expandvars p)) pats))))) "file_out" (VStr fo')) "event_range" er) "files_in" = Some (VList (map VStr (first_occurrences (flat_map (fun p => glob (expandvars p)) pats)))))
    by (now rewrite !lookup_store).
  split.
  - destruct G as [G _]. destruct (G _ _ Hk) as (p & Hp & Ep). rewrite <- Ep, V by assumption. now rewrite Ep, Hk.
  - split; [|assumption]. destruct (not_before_spec (flat_map (fun p => glob (expandvars p)) pats) []) as (A & B & C). split; [assumption|]. split; [intros f; rewrite B; cbn; tauto|exact C].
Qed.
Print Assumptions C58_each_file_once.

(** the parameters that are not options of the command line reach the city unchanged; every one must be a parameter
    of the city, of the declared type; the others have the declared defaults *)
Lemma lookup_filter {A} (f : string -> bool) (d : dict A) k : lookup (filter (fun kv => f (fst kv)) d) k = if f k then lookup d k else None.
Proof.
  induction d as [|[k' a] d IH]; cbn [filter lookup fst]; [now destruct (f k)|]. destruct (f k') eqn:E; cbn [lookup]; destruct (String.eqb_spec k k') as [->|]; rewrite ?IH, ?E; try reflexivity.
Qed.

Theorem C31_city_arguments expandvars glob ps kwds args :
  NoDup (map pname ps) -> city expandvars glob ps kwds = Ok args ->
  (forall k v, lookup kwds k = Some v -> In k control_options \/ exists p, In p ps /\ pname p = k) /\
  (forall p, In p ps -> exists v, lookup args (pname p) = Some v /\
     (pname p <> "files_in" -> pname p <> "file_out" -> pname p <> "event_range" -> ~ In (pname p) control_options ->
      match lookup kwds (pname p) with Some w => v = w /\ conforms v (ptype p) | None => pdefault p = Some v end)) /\
  (exists fo, lookup kwds "file_out" = Some (VStr fo) /\ lookup args "file_out" = Some (VStr (expandvars fo))) /\
  (exists er, event_range (lookup kwds "event_range") = Ok er /\ lookup args "event_range" = Some er).
Proof.
  intros N. unfold city. destruct (lookup kwds "files_in") as [fi|] eqn:Efi; [|discriminate]. destruct (lookup kwds "file_out") as [fo|] eqn:Efo; [|discriminate].
  match goal with |- context [match ?x with Some patterns => _ | None => _ end] => destruct x as [pats|]; [|discriminate] end.
  destruct (input_files expandvars glob pats) as [fs|]; [|discriminate]. cbn [rbind]. destruct fo as [| | | | | | |fo| | | | | |]; try discriminate. cbn [expand_value rbind].
  set (conf := filter (fun kv => negb (existsb (String.eqb (fst kv)) control_options)) kwds).
  assert (Hc : forall k, lookup conf k = if existsb (String.eqb k) control_options then None else lookup kwds k).
  { intros k. unfold conf. rewrite (lookup_filter (fun k => negb (existsb (String.eqb k) control_options))). now destruct (existsb _ _). }
  rewrite !lookup_store. cbn [String.eqb Ascii.eqb Bool.eqb]. rewrite Hc. change (existsb (String.eqb "event_range") control_options) with false. cbv iota.
  destruct (event_range (lookup kwds "event_range")) as [er|] eqn:Eer; [|discriminate]. cbn [rbind]. intros E.
  destruct (C31_first_call_runs_only_if_good _ _ _ N E) as (G & M & V). clear E.
  match type of G with good_call _ ?d => assert (L : forall k, lookup d k =
    if String.eqb k "event_range" then Some er else if String.eqb k "file_out" then Some (VStr (expandvars fo)) else
    if String.eqb k "files_in" then Some (VList (map VStr (first_occurrences fs))) else if existsb (String.eqb k) control_options then None else lookup kwds k) by (intros k; now rewrite !lookup_store, Hc); set (kw := d) in * end.
  destruct G as [G1 G2].
  assert (Hco : forall k, existsb (String.eqb k) control_options = true <-> In k control_options).
  { intros k. rewrite existsb_exists. split; [intros (x & Hx & Ex); apply String.eqb_eq in Ex; now subst|]. intros H. exists k. split; [assumption|apply String.eqb_refl]. }
  split; [|split; [|split]].
  - intros k v Ek. destruct (existsb (String.eqb k) control_options) eqn:Ec; [left; now apply Hco|right].
    specialize (L k). rewrite Ec, Ek in L. destruct (String.eqb k "event_range"); [eauto|]. destruct (String.eqb k "file_out"); [eauto|]. destruct (String.eqb k "files_in"); eauto.
  - intros p Hp. pose proof (G2 p Hp) as Gp. rewrite (V p Hp). rewrite L in *. 
    destruct (String.eqb_spec (pname p) "event_range") as [E1|E1]; [eexists; split; [reflexivity|congruence]|].
    destruct (String.eqb_spec (pname p) "file_out") as [E2|E2]; [eexists; split; [reflexivity|congruence]|].
    destruct (String.eqb_spec (pname p) "files_in") as [E3|E3]; [eexists; split; [reflexivity|congruence]|].
    destruct (existsb (String.eqb (pname p)) control_options) eqn:Ec.
    + destruct (pdefault p) as [v|]; [|easy]. exists v. split; [reflexivity|]. intros _ _ _ C. exfalso. apply C. now apply Hco.
    + destruct (lookup kwds (pname p)) as [v|]; [eexists; split; [reflexivity|auto]|]. destruct (pdefault p) as [v|]; [|easy]. exists v. auto.
  - exists fo. split; [reflexivity|]. specialize (L "file_out"). cbn [String.eqb Ascii.eqb Bool.eqb] in L. destruct (G1 _ _ L) as (p & Hp & Ep). rewrite <- Ep, V, Ep, L by assumption. reflexivity.
  - exists er. split; [reflexivity|]. specialize (L "event_range"). cbn [String.eqb Ascii.eqb Bool.eqb] in L. destruct (G1 _ _ L) as (p & Hp & Ep). rewrite <- Ep, V, Ep, L by assumption. reflexivity.
Qed.
Print Assumptions C31_city_arguments.

Definition demo_city : list param :=
  [{| pname := "files_in"; ptype := TUnion [TClass "str"; TSeqOf (TClass "str")]; pdefault := None |};
   {| pname := "file_out"; ptype := TClass "str"; pdefault := None |};
   {| pname := "event_range"; ptype := event_range_type; pdefault := None |};
   {| pname := "run_number"; ptype := TInt; pdefault := None |};
   {| pname := "rate"; ptype := TFloat; pdefault := Some (VFloat 0.5) |}].
Example C31_demo :
  let glob p := if String.eqb p "*.h5" then ["a.h5"; "b.h5"] else if String.eqb p "a.h5" then ["a.h5"] else [] in
  let kw := [("files_in", VList [VStr "a.h5"; VStr "*.h5"]); ("file_out", VStr "out.h5"); ("run_number", VInt 6); ("verbosity", VInt 20)] in
  city (fun s => s) glob demo_city kw =
    Ok [("files_in", VList [VStr "a.h5"; VStr "b.h5"]); ("file_out", VStr "out.h5"); ("event_range", VTuple [VNone; VInt 1]); ("run_number", VInt 6); ("rate", VFloat 0.5)] /\
  city (fun s => s) glob demo_city (store kw "run_number" (VStr "6")) = Err ValueError /\
  city (fun s => s) glob demo_city (store kw "runnumber" (VInt 6)) = Err TypeError /\
  city (fun s => s) glob demo_city (remove_key kw "run_number") = Err ValueError.
Proof. repeat split; vm_compute; reflexivity. Qed.

(** ** C58: the events of the files *)
Section Sources.
  Context {E W S T C : Type}.
  Notation file := (h5file E W S T C).

  Lemma all_equal_spec l : all_equal l = true <-> forall a b, In a l -> In b l -> a = b.
  Proof.
    induction l as [|a [|b l] IH]; cbn [all_equal]; [split; easy|split; [|reflexivity]; intros _ ? ? [<-|[]] [<-|[]]; reflexivity|].
    rewrite andb_true_iff, Nat.eqb_eq, IH. split.
    - intros [<- H] x y Hx Hy. assert (Kx : In x (a :: l)) by (destruct Hx as [<-|]; [now left|assumption]). assert (Ky : In y (a :: l)) by (destruct Hy as [<-|]; [now left|assumption]). auto.
    - intros H. split; [apply H; [now left|right; now left]|]. intros x y Hx Hy. apply H; now right.
  Qed.

  Lemma zip5_nth run es : forall (ws : list W) (ss : list S) (ts : option (list T)) (cs : option (list C)),
    List.length ws = List.length es -> List.length ss = List.length es ->
    (forall l, ts = Some l -> List.length l = List.length es) -> (forall l, cs = Some l -> List.length l = List.length es) ->
    forall i (y : waveforms E W S T C), nth_error (zip5 run ws ss es ts cs) i = Some y <->
      nth_error es i = Some (w_event y) /\ w_run y = run /\ nth_error ws i = Some (w_pmt y) /\ nth_error ss i = Some (w_sipm y) /\
      (match ts with Some ts => exists t, nth_error ts i = Some t /\ w_trg y = Some t | None => w_trg y = None end) /\
      (match cs with Some cs => exists c, nth_error cs i = Some c /\ w_chn y = Some c | None => w_chn y = None end).
  Proof.
    induction es as [|e es IH]; intros ws ss ts cs Hw Hs Ht Hc i y.
    - destruct ws; [|discriminate]. destruct ss; [|discriminate]. cbn. destruct i; cbn; split; [discriminate|intros (? & _); discriminate|discriminate|intros (? & _); discriminate].
    - destruct ws as [|w ws]; [discriminate|]. destruct ss as [|s ss]; [discriminate|]. cbn [zip5].
      assert (Nt : exists t ts', next_of ts = Some (t, ts') /\ (forall l, ts' = Some l -> List.length l = List.length es) /\
        match ts with None => t = None /\ ts' = None | Some l => exists a l', l = a :: l' /\ t = Some a /\ ts' = Some l' end).
      { destruct ts as [[|t ts]|]; [specialize (Ht _ eq_refl); discriminate| |]; cbn [next_of]; do 2 eexists; split; try reflexivity; split; eauto; try discriminate.
        intros l El. injection El as <-. specialize (Ht _ eq_refl). now injection Ht. }
      assert (Nc : exists t ts', next_of cs = Some (t, ts') /\ (forall l, ts' = Some l -> List.length l = List.length es) /\
        match cs with None => t = None /\ ts' = None | Some l => exists a l', l = a :: l' /\ t = Some a /\ ts' = Some l' end).
      { destruct cs as [[|t cs']|]; [specialize (Hc _ eq_refl); discriminate| |]; cbn [next_of]; do 2 eexists; split; try reflexivity; split; eauto; try discriminate.
        intros l El. injection El as <-. specialize (Hc _ eq_refl). now injection Hc. }
      destruct Nt as (t & ts' & Et & Lt & Mt), Nc as (c & cs' & Ec & Lc & Mc). rewrite Et, Ec. cbn in Hw, Hs. injection Hw as Hw. injection Hs as Hs.
      destruct i as [|i]; cbn [nth_error].
      + split.
        * intros K. injection K as <-. cbn. repeat (split; [reflexivity|]).
          split; [destruct ts; [destruct Mt as (a & l' & -> & -> & _); exists a; cbn; auto|now destruct Mt]|destruct cs; [destruct Mc as (a & l' & -> & -> & _); exists a; cbn; auto|now destruct Mc]].
        * intros (K1 & K2 & K3 & K4 & K5 & K6). destruct y as [y1 y2 y3 y4 y5 y6]. cbn in *. injection K1 as <-. subst y3. injection K3 as <-. injection K4 as <-.
          assert (y5 = t) as -> by (destruct ts; [destruct Mt as (a & l' & -> & -> & _); destruct K5 as (? & K & ->); now injection K as <-|destruct Mt; congruence]).
          assert (y6 = c) as -> by (destruct cs; [destruct Mc as (a & l' & -> & -> & _); destruct K6 as (? & K & ->); now injection K as <-|destruct Mc; congruence]). reflexivity.
      + rewrite (IH ws ss ts' cs' Hw Hs Lt Lc i y).
        assert (Rt : match ts' with Some ts => exists t, nth_error ts i = Some t /\ w_trg y = Some t | None => w_trg y = None end <-> match ts with Some ts => exists t, nth_error ts (Datatypes.S i) = Some t /\ w_trg y = Some t | None => w_trg y = None end)
          by (destruct ts; [destruct Mt as (a & l' & -> & -> & ->); reflexivity|destruct Mt as [_ ->]; reflexivity]).
        assert (Rc : match cs' with Some ts => exists t, nth_error ts i = Some t /\ w_chn y = Some t | None => w_chn y = None end <-> match cs with Some ts => exists t, nth_error ts (Datatypes.S i) = Some t /\ w_chn y = Some t | None => w_chn y = None end)
          by (destruct cs; [destruct Mc as (a & l' & -> & -> & ->); reflexivity|destruct Mc as [_ ->]; reflexivity]).
        rewrite Rt, Rc. cbn [nth_error]. tauto.
  Qed.

  (** a file with all its tables of the same length gives its events, each once and in order *)
  Lemma readable_file (f : file) n : readable f n -> exists l, wf_from_file f = (l, None) /\ List.length l = n /\ events_of f l.
  Proof.
    intros ((es & Ee & Le) & (r & rs & Er) & (ws & Ew & Lw) & (ss & Es & Ls) & Ht & Hc). unfold wf_from_file. rewrite Ee, Er, Ew, Es.
    assert (Ha : all_equal ([List.length ws; List.length ss; List.length es] ++ known_length (h_trg f) ++ known_length (h_chn f)) = true).
    { apply all_equal_spec. assert (K : forall x, In x ([List.length ws; List.length ss; List.length es] ++ known_length (h_trg f) ++ known_length (h_chn f)) -> x = n).
      { intros x Hx. rewrite !in_app_iff in Hx. cbn in Hx. unfold known_length in Hx. destruct Hx as [[<-|[<-|[<-|[]]]]|[Hx|Hx]]; auto.
        - destruct (h_trg f) as [l|]; [destruct Hx as [<-|[]]; now apply Ht|destruct Hx].
        - destruct (h_chn f) as [l|]; [destruct Hx as [<-|[]]; now apply Hc|destruct Hx]. }
      intros a b Ha Hb. rewrite (K a Ha), (K b Hb). reflexivity. }
    rewrite Ha. eexists. split; [reflexivity|].
    pose proof (zip5_nth r es ws ss (h_trg f) (h_chn f)) as Z. specialize (Z ltac:(congruence) ltac:(congruence)).
    specialize (Z ltac:(intros l El; rewrite (Ht l El); congruence) ltac:(intros l El; rewrite (Hc l El); congruence)). split.
    - set (l := zip5 _ _ _ _ _ _) in *. assert (A1 : forall i, nth_error l i = None <-> nth_error es i = None).
      { intros i. split; intros Hn.
        - destruct (nth_error es i) as [e|] eqn:Eei; [|reflexivity]. exfalso. assert (Hi : (i < n)%nat) by (rewrite <- Le; apply nth_error_Some; congruence).
          destruct (nth_error ws i) as [w|] eqn:Ewi; [|apply nth_error_None in Ewi; lia]. destruct (nth_error ss i) as [s|] eqn:Esi; [|apply nth_error_None in Esi; lia].
          assert (Kt : exists t : option T, match h_trg f with Some ts => exists t', nth_error ts i = Some t' /\ t = Some t' | None => t = None end).
          { destruct (h_trg f) as [ts|]; [|eauto]. specialize (Ht _ eq_refl). destruct (nth_error ts i) as [t'|] eqn:Eti; [eauto|]. apply nth_error_None in Eti. lia. }
          assert (Kc : exists t : option C, match h_chn f with Some ts => exists t', nth_error ts i = Some t' /\ t = Some t' | None => t = None end).
          { destruct (h_chn f) as [ts|]; [|eauto]. specialize (Hc _ eq_refl). destruct (nth_error ts i) as [t'|] eqn:Eti; [eauto|]. apply nth_error_None in Eti. lia. }
          destruct Kt as [t Kt], Kc as [c Kc]. specialize (Z i {| w_pmt := w; w_sipm := s; w_run := r; w_event := e; w_trg := t; w_chn := c |}).
          assert (K : nth_error l i = Some {| w_pmt := w; w_sipm := s; w_run := r; w_event := e; w_trg := t; w_chn := c |}); [|congruence]. apply Z. cbn. auto 10.
        - destruct (nth_error l i) as [y|] eqn:Ey; [|reflexivity]. apply Z in Ey. destruct Ey as (Ey & _). congruence. }
      apply Nat.le_antisymm; rewrite <- Le; apply nth_error_None; apply A1; apply nth_error_None; lia.
    - intros i y. rewrite Z. split.
      + intros (K1 & K2 & K3 & K4 & K5 & K6). repeat split; eauto. 
      + intros ((es' & A1 & A2) & (r' & rs' & B1 & B2) & (ws' & C1 & C2) & (ss' & D1 & D2) & K5 & K6). assert (es' = es) by congruence. assert (ws' = ws) by congruence. assert (ss' = ss) by congruence. assert (r' = r) by congruence. subst. auto 10.
  Qed.

  Lemma lacking_file (f : file) : lacks_a_table f -> wf_from_file f = ([], None).
  Proof.
    unfold lacks_a_table, wf_from_file. intros [->|[->|[(r & rs & ->) H]]]; [reflexivity|destruct (h_events f); reflexivity|]. destruct (h_events f); [|reflexivity].
    destruct H as [->| ->]; [reflexivity|]. destruct (h_pmt f); reflexivity.
  Qed.

  (** all the events of the readable files, in the order of the files and of their tables *)
  Theorem C58_all_events (open_file : string -> file) paths :
    (forall p, In p paths -> lacks_a_table (open_file p) \/ exists n, readable (open_file p) n) ->
    exists parts, wf_from_files open_file paths = (List.concat parts, None) /\
      Forall2 (fun p l => (lacks_a_table (open_file p) /\ l = []) \/ (exists n, readable (open_file p) n /\ List.length l = n /\ events_of (open_file p) l)) paths parts.
  Proof.
    induction paths as [|p paths IH]; intros H; [exists []; split; [reflexivity|constructor]|]. destruct IH as (parts & E1 & F); [intros; apply H; now right|]. cbn [wf_from_files].
    destruct (H p (or_introl eq_refl)) as [L|(n & R)].
    - rewrite (lacking_file _ L), E1. exists ([] :: parts). split; [reflexivity|]. constructor; [now left|assumption].
    - destruct (readable_file _ n R) as (l & El & Ll & Ev). rewrite El, E1. exists (l :: parts). split; [reflexivity|]. constructor; [right; eauto|assumption].
  Qed.

  (** a file whose tables have different numbers of rows ends the processing with an error, after the events of the previous
      files and without any event of its own *)
  Theorem C58_inconsistent_file (open_file : string -> file) before p after es r rs ws ss :
    (forall q, In q before -> lacks_a_table (open_file q) \/ exists n, readable (open_file q) n) ->
    h_events (open_file p) = Some es -> h_run (open_file p) = Some (r :: rs) -> h_pmt (open_file p) = Some ws -> h_sipm (open_file p) = Some ss ->
    ~ readable (open_file p) (List.length es) ->
    exists l, wf_from_files open_file before = (l, None) /\ wf_from_files open_file (before ++ p :: after) = (l, Some InvalidInputFileStructure).
  Proof.
    intros H Ee Er Ew Es Hn. destruct (C58_all_events open_file before H) as (parts & E1 & _). exists (List.concat parts). split; [assumption|].
    assert (G : forall l, wf_from_files open_file before = (l, None) -> wf_from_files open_file (before ++ p :: after) = (l, Some InvalidInputFileStructure)); [|now apply G].
    clear E1 parts. induction before as [|q before IH]; intros l E1.
    - injection E1 as <-. cbn [app wf_from_files]. unfold wf_from_file. rewrite Ee, Er, Ew, Es.
      destruct (all_equal _) eqn:Ea; [|reflexivity]. exfalso. apply Hn. rewrite all_equal_spec in Ea.
      assert (K : forall x, In x ([List.length ws; List.length ss; List.length es] ++ known_length (h_trg (open_file p)) ++ known_length (h_chn (open_file p))) -> x = List.length es)
        by (intros x Hx; apply Ea; [assumption|rewrite in_app_iff; cbn; auto]).
      split; [exists es; auto|]. split; [exists r, rs; auto|]. split; [exists ws; split; [assumption|apply K; cbn; auto]|]. split; [exists ss; split; [assumption|apply K; cbn; auto]|].
      split; intros l El; apply K; rewrite !in_app_iff, El; cbn; auto.
    - cbn [app wf_from_files] in *. destruct (wf_from_file (open_file q)) as [ys [e|]]; [discriminate|]. destruct (wf_from_files open_file before) as [zs e]. injection E1 as <- ->.
      rewrite (IH ltac:(intros; apply H; now right) zs eq_refl). reflexivity.
  Qed.
End Sources.
Print Assumptions C58_all_events.
Print Assumptions C58_inconsistent_file.

(** a file without run information ends the processing with IndexError although its tables are there *)
Theorem C58_empty_run_table_refuted : exists f : h5file nat nat nat nat nat,
  h_events f = Some [1%nat] /\ h_pmt f = Some [1%nat] /\ h_sipm f = Some [1%nat] /\
  wf_from_files (fun _ => f) ["a"] = ([], Some IndexError).
Proof. exists {| h_events := Some [1%nat]; h_run := Some []; h_pmt := Some [1%nat]; h_sipm := Some [1%nat]; h_trg := None; h_chn := None |}. repeat split. Qed.

Example C58_demo :
  let good e := {| h_events := Some [e; S e]; h_run := Some [7%Z]; h_pmt := Some ["p"; "q"]; h_sipm := Some ["s"; "t"]; h_trg := @None (list nat); h_chn := Some [1; 2] |}%nat in
  let bad := {| h_events := Some [1]; h_run := Some [7%Z]; h_pmt := Some ["p"; "q"]; h_sipm := Some ["s"; "t"]; h_trg := @None (list nat); h_chn := Some [1; 2] |}%nat in
  let fs n := if String.eqb n "a" then good 1%nat else if String.eqb n "b" then good 5%nat else bad in
  readable (fs "a") 2 /\ map (fun y => (w_event y, w_pmt y, w_chn y)) (fst (wf_from_files fs ["a"; "b"])) =
    [(1, "p", Some 1); (2, "q", Some 2); (5, "p", Some 1); (6, "q", Some 2)]%nat /\
  snd (wf_from_files fs ["a"; "c"; "b"]) = Some InvalidInputFileStructure.
Proof.
  cbn zeta. split; [|split; reflexivity]. split; [eexists; split; reflexivity|]. split; [do 2 eexists; reflexivity|]. split; [eexists; split; reflexivity|]. split; [eexists; split; reflexivity|].
  split; intros l E; [discriminate|injection E as <-; reflexivity].
Qed.
Print Assumptions C30_deleted_value_not_in_history_refuted.
Print Assumptions C31_none_for_optional_tuple_refuted.
Print Assumptions C31_tuple_length_refuted.
Print Assumptions C31_second_call_unchecked_refuted.
Print Assumptions C51_documented_forms.
Print Assumptions C58_empty_run_table_refuted.
