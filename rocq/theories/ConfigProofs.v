(** Lemmas for C30 and C31 *)
From Verif Require Import Base ConfigModel ConfigSpec.
Local Open Scope string_scope.
Local Open Scope list_scope.

(** ** dictionaries *)
Lemma lookup_store {A} (d : dict A) k a k' : lookup (store d k a) k' = if String.eqb k' k then Some a else lookup d k'.
Proof.
  induction d as [|[k0 a0] d IH]; cbn [store lookup]; [reflexivity|]. destruct (String.eqb_spec k k0) as [->|N]; cbn [lookup].
  - destruct (String.eqb k' k0); reflexivity.
  - rewrite IH. destruct (String.eqb_spec k' k0) as [->|]; [|reflexivity]. destruct (String.eqb_spec k0 k) as [->|]; [contradiction|reflexivity].
Qed.
Lemma lookup_remove {A} (d : dict A) k k' : lookup (remove_key d k) k' = if String.eqb k' k then None else lookup d k'.
Proof.
  unfold remove_key. induction d as [|[k0 a0] d IH]; cbn [filter lookup fst]; [destruct (String.eqb k' k); reflexivity|].
  destruct (String.eqb_spec k k0) as [->|N]; cbn [negb lookup].
  - rewrite IH. destruct (String.eqb k' k0); reflexivity.
  - rewrite IH. destruct (String.eqb_spec k' k0) as [->|]; [|reflexivity]. destruct (String.eqb_spec k0 k) as [->|]; [contradiction|reflexivity].
Qed.
Lemma lookup_in {A} (d : dict A) k a : lookup d k = Some a -> In (k, a) d.
Proof. induction d as [|[k0 a0] d IH]; cbn; [discriminate|]. destruct (String.eqb_spec k k0) as [->|]; [intros E; injection E as <-; now left|right; auto]. Qed.
Lemma lookup_none {A} (d : dict A) k : lookup d k = None <-> ~ In k (map fst d).
Proof.
  induction d as [|[k0 a0] d IH]; cbn; [tauto|]. destruct (String.eqb_spec k k0) as [->|N]; [split; [discriminate|tauto]|]. rewrite IH. intuition congruence.
Qed.

(** ** stories *)
Lemma story_snoc k h e : story k (h ++ [e]) = story k h ++ (if String.eqb k (about e) then [e] else []).
Proof. unfold story. rewrite filter_app. cbn. destruct (String.eqb k (about e)); reflexivity. Qed.

Lemma value_after_snoc h e k : value_after (h ++ [e]) k =
  if String.eqb k (about e) then match e with Assigned _ v _ => Some v | Deleted _ => None end else value_after h k.
Proof.
  unfold value_after. rewrite story_snoc. destruct (String.eqb k (about e)); [|now rewrite app_nil_r]. rewrite rev_app_distr. cbn. destruct e; reflexivity.
Qed.
Lemma file_after_snoc h e k : file_after (h ++ [e]) k =
  if String.eqb k (about e) then match e with Assigned _ _ f => Some f | Deleted _ => None end else file_after h k.
Proof.
  unfold file_after. rewrite story_snoc. destruct (String.eqb k (about e)); [|now rewrite app_nil_r]. rewrite rev_app_distr. cbn. destruct e; reflexivity.
Qed.

Lemma overridden_snoc_deleted l k : overridden (l ++ [Deleted k]) = overridden l.
Proof.
  induction l as [|e l IH]; cbn [overridden app]; [reflexivity|]. destruct e as [k0 v f|k0]; [|exact IH].
  destruct l as [|[k1 v1 f1|k1] l]; cbn [app] in *; [reflexivity| |]; rewrite IH; reflexivity.
Qed.
Lemma overridden_snoc_assigned l k v f : overridden (l ++ [Assigned k v f]) =
  overridden l ++ match rev l with Assigned _ v' f' :: _ => [(v', f')] | _ => [] end.
Proof.
  induction l as [|e l IH]; cbn [overridden app]; [reflexivity|].
  destruct l as [|e1 l]; [destruct e; reflexivity|].
  assert (R : match rev (e :: e1 :: l) with Assigned _ v' f' :: _ => [(v', f')] | _ => [] end = match rev (e1 :: l) with Assigned _ v' f' :: _ => [(v', f')] | _ => [] end).
  { cbn [rev]. destruct (rev l) as [|e2 r]; cbn; [reflexivity|]. destruct e2; reflexivity. }
  rewrite R. cbn [app] in *. destruct e as [k0 v0 f0|k0]; [|exact IH]. destruct e1 as [k1 v1 f1|k1]; cbn [app]; rewrite IH; reflexivity.
Qed.

Definition history_of (c : config) (k : string) : list (pyval * string) := match lookup (chist c) k with Some l => l | None => [] end.

Record state_of (h : list event) (c : config) : Prop := {
  so_value : forall k, lookup (cdata c) k = value_after h k;
  so_file : forall k, value_after h k <> None -> lookup (cfile c) k = file_after h k;
  so_hist : forall k, history_of c k = overridden (story k h) }.

Lemma state_of_stack h c c' : cdata c' = cdata c -> cfile c' = cfile c -> chist c' = chist c -> state_of h c -> state_of h c'.
Proof. intros E1 E2 E3 [H1 H2 H3]. constructor; unfold history_of in *; rewrite ?E1, ?E2, ?E3; assumption. Qed.

Lemma value_file h k : value_after h k = None <-> file_after h k = None.
Proof. unfold value_after, file_after. destruct (rev (story k h)) as [|[]]; split; congruence. Qed.

Lemma set_item_state h c k v : state_of h c -> state_of (h ++ [Assigned k v (current_file c)]) (set_item c k v) /\ cstack (set_item c k v) = cstack c.
Proof.
  intros [H1 H2 H3]. split; [|reflexivity]. constructor.
  - intros k'. cbn [set_item cdata]. rewrite lookup_store, value_after_snoc. cbn [about]. destruct (String.eqb k' k); [reflexivity|apply H1].
  - intros k'. cbn [set_item cfile]. rewrite lookup_store, value_after_snoc, file_after_snoc. cbn [about]. destruct (String.eqb k' k); [reflexivity|apply H2].
  - intros k'. rewrite story_snoc. cbn [about].
    assert (E : chist (set_item c k v) = match value_after h k, file_after h k with Some old, Some f => store (chist c) k (history_of c k ++ [(old, f)]) | _, _ => chist c end).
    { cbn [set_item chist]. rewrite H1. destruct (value_after h k) eqn:Ev; [|reflexivity]. rewrite H2 by congruence. reflexivity. }
    unfold history_of at 1. rewrite E. destruct (String.eqb_spec k' k) as [->|N].
    + rewrite overridden_snoc_assigned, <- H3. unfold value_after, file_after. destruct (rev (story k h)) as [|[k0 v0 f0|k0] r].
      * unfold history_of. now rewrite app_nil_r.
      * rewrite lookup_store, String.eqb_refl. reflexivity.
      * unfold history_of. now rewrite app_nil_r.
    + rewrite app_nil_r, <- H3. destruct (value_after h k), (file_after h k); try reflexivity. unfold history_of. rewrite lookup_store. destruct (String.eqb_spec k' k); [contradiction|reflexivity].
Qed.

Lemma del_item_state h c k : state_of h c -> value_after h k <> None ->
  exists c', del_item c k = Ok c' /\ state_of (h ++ [Deleted k]) c' /\ cstack c' = cstack c.
Proof.
  intros [H1 H2 H3] Hk. unfold del_item, has_key. rewrite H1. destruct (value_after h k) eqn:E; [|easy]. eexists. split; [reflexivity|]. split; [|reflexivity]. constructor.
  - intros k'. cbn [cdata]. rewrite lookup_remove, value_after_snoc, H1. reflexivity.
  - intros k'. cbn [cfile]. rewrite value_after_snoc, file_after_snoc. cbn [about]. destruct (String.eqb k' k); [congruence|apply H2].
  - intros k'. unfold history_of. cbn [chist]. fold (history_of c k'). rewrite story_snoc, H3. cbn [about]. destruct (String.eqb k' k); [now rewrite overridden_snoc_deleted|now rewrite app_nil_r].
Qed.
Lemma del_item_missing h c k : state_of h c -> value_after h k = None -> del_item c k = Err NameError.
Proof. intros [H1 _ _] Hk. unfold del_item, has_key. now rewrite H1, Hk. Qed.

Section Reading.
  Variables (files : string -> option (list stmt)) (builtins : dict pyval) (expand : string -> string).

  Lemma read_name_iff h c k v : state_of h c -> read_name builtins (cdata c) k = Ok v <-> name_value builtins h k v.
  Proof.
    intros [H1 _ _]. unfold read_name, name_value. rewrite H1. destruct (value_after h k) as [w|].
    - split; [intros E; left; congruence|intros [E|[E _]]; congruence].
    - destruct (lookup builtins k) as [w|]; (split; [intros E; try discriminate; right; split; congruence|intros [E|[_ E]]; congruence]).
  Qed.

  Lemma Forall2_impl_simple {A B} (R S : A -> B -> Prop) l m : (forall a b, R a b -> S a b) -> Forall2 R l m -> Forall2 S l m.
  Proof. intros H. induction 1; constructor; auto. Qed.

  Lemma rmap_forall2_iff {A B} (f : A -> result B) l m : rmap f l = Ok m <-> Forall2 (fun a b => f a = Ok b) l m.
  Proof.
    revert m. induction l as [|a l IH]; intros m; cbn [rmap].
    - split; [intros E; injection E as <-; constructor|inversion 1; reflexivity].
    - destruct (f a) as [b|e] eqn:E; [|split; [discriminate|inversion 1; congruence]]. destruct (rmap f l) as [bs|e] eqn:E2.
      + split; [intros H; injection H as <-; constructor; [assumption|now apply IH]|]. inversion 1; subst. f_equal. apply IH in H4. congruence.
      + split; [discriminate|]. inversion 1; subst. apply IH in H4. discriminate.
  Qed.

  Lemma eval_iff h c e v : state_of h c ->
    eval builtins (cdata c) e = Ok v <-> exists vs, Forall2 (name_value builtins h) (reads e) vs /\ compute e vs = Ok v.
  Proof.
    intros Hs. unfold eval. assert (K : forall vs, rmap (read_name builtins (cdata c)) (reads e) = Ok vs <-> Forall2 (name_value builtins h) (reads e) vs).
    { intros vs. rewrite rmap_forall2_iff. split; apply Forall2_impl_simple; intros a b; now apply read_name_iff. }
    destruct (rmap _ (reads e)) as [vs|x] eqn:E; cbn [rbind].
    - split; [intros H; exists vs; split; [now apply K|assumption]|]. intros (vs' & H1 & H2). apply K in H1. congruence.
    - split; [discriminate|]. intros (vs' & H1 & _). apply K in H1. discriminate.
  Qed.

  Definition reads_file (f : string) (c c' : config) (h : list event) : Prop :=
    exists body h', files (expand f) = Some body /\ runs files builtins expand (expand f) body h h' /\ state_of (h ++ h') c' /\ cstack c' = cstack c.

  Lemma exec_sound inc : (forall f c c' h, state_of h c -> inc f c = Some (Ok c') -> reads_file f c c' h) ->
    forall ss c c' h, state_of h c -> exec builtins inc ss c = Some (Ok c') ->
    exists h', runs files builtins expand (current_file c) ss h h' /\ state_of (h ++ h') c' /\ cstack c' = cstack c.
  Proof.
    intros Hinc. induction ss as [|[k e|f|k] ss IH]; intros c c' h Hs E; cbn [exec] in E.
    - injection E as <-. exists []. rewrite app_nil_r. split; [constructor|auto].
    - destruct (eval builtins (cdata c) e) as [v|] eqn:Ev; [|discriminate]. apply (eval_iff h) in Ev; [|assumption]. destruct Ev as (vs & F & Ev).
      destruct (set_item_state h c k v Hs) as [Hs' St]. destruct (IH _ _ _ Hs' E) as (h' & R & Hs2 & St2).
      assert (Cf : current_file (set_item c k v) = current_file c) by reflexivity. rewrite Cf in R.
      exists (Assigned k v (current_file c) :: h'). rewrite <- app_assoc in Hs2. split; [eapply runs_assign; eassumption|]. split; [exact Hs2|congruence].
    - destruct (inc f c) as [[c1|]|] eqn:Ei; try discriminate. destruct (Hinc _ _ _ _ Hs Ei) as (body & h1 & Ef & R1 & Hs1 & St1).
      destruct (IH _ _ _ Hs1 E) as (h2 & R2 & Hs2 & St2). assert (Cf : current_file c1 = current_file c) by (unfold current_file; now rewrite St1). rewrite Cf in R2.
      exists (h1 ++ h2). rewrite app_assoc. split; [eapply runs_include; eassumption|]. split; [assumption|congruence].
    - destruct (value_after h k) eqn:Ek.
      + destruct (del_item_state h c k Hs) as (c1 & Ed & Hs1 & St1); [congruence|]. rewrite Ed in E. destruct (IH _ _ _ Hs1 E) as (h' & R & Hs2 & St2).
        assert (Cf : current_file c1 = current_file c) by (unfold current_file; now rewrite St1). rewrite Cf in R.
        exists (Deleted k :: h'). rewrite <- app_assoc in Hs2. split; [apply runs_delete; [congruence|assumption]|]. split; [exact Hs2|congruence].
      + rewrite (del_item_missing h c k Hs Ek) in E. discriminate.
  Qed.

  Lemma read_sound fuel : forall f c c' h, state_of h c -> read_file files builtins expand fuel f c = Some (Ok c') -> reads_file f c c' h.
  Proof.
    induction fuel as [|fuel IH]; intros f c c' h Hs E; [discriminate|]. cbn [read_file] in E.
    destruct (files (expand f)) as [body|] eqn:Ef; [|discriminate].
    destruct (exec builtins (read_file files builtins expand fuel) body (push_file c (expand f))) as [[c1|]|] eqn:Ee; try discriminate. injection E as <-.
    assert (Hp : state_of h (push_file c (expand f))) by (eapply state_of_stack; [..|exact Hs]; reflexivity).
    destruct (exec_sound _ IH body _ _ h Hp Ee) as (h' & R & Hs' & St). exists body, h'. split; [assumption|]. split; [exact R|].
    split; [eapply state_of_stack; [..|exact Hs']; reflexivity|]. cbn [pop_file cstack]. rewrite St. reflexivity.
  Qed.

  (** more fuel changes nothing *)
  Definition extends (i j : string -> config -> option (result config)) : Prop := forall f c r, i f c = Some r -> j f c = Some r.
  Lemma exec_mono i j : extends i j -> forall ss c r, exec builtins i ss c = Some r -> exec builtins j ss c = Some r.
  Proof.
    intros H. induction ss as [|[k e|f|k] ss IH]; intros c r E; cbn [exec] in *; [assumption| | |].
    - destruct (eval _ _ e); [auto|assumption].
    - destruct (i f c) as [[c1|]|] eqn:Ei; [| |discriminate]; rewrite (H _ _ _ Ei); [auto|assumption].
    - destruct (del_item c k); [auto|assumption].
  Qed.
  Lemma read_mono n m : (n <= m)%nat -> extends (read_file files builtins expand n) (read_file files builtins expand m).
  Proof.
    revert m. induction n as [|n IH]; intros m Hm f c r E; [discriminate|]. destruct m as [|m]; [lia|]. cbn [read_file] in *.
    destruct (files (expand f)) as [body|]; [|assumption].
    destruct (exec builtins (read_file files builtins expand n) body (push_file c (expand f))) as [rr|] eqn:Ee; [|discriminate].
    rewrite (exec_mono _ _ (IH m ltac:(lia)) _ _ _ Ee). assumption.
  Qed.

  Lemma names_det h l vs : Forall2 (name_value builtins h) l vs -> forall ws, Forall2 (name_value builtins h) l ws -> vs = ws.
  Proof.
    induction 1 as [|k v l m Hv F IH]; intros ws H; inversion H as [|? w ? ws' Hw F']; subst; [reflexivity|]. f_equal; [|auto].
    unfold name_value in *. intuition congruence.
  Qed.
  Lemma runs_det n ss h h1 : runs files builtins expand n ss h h1 -> forall h2, runs files builtins expand n ss h h2 -> h1 = h2.
  Proof.
    induction 1 as [n h|n k e ss h vs v h' F Ev R IH|n k ss h h' Hk R IH|n f' body' ss h h1 h2 Ef R1 IH1 R2 IH2]; intros g Hg.
    - inversion Hg. reflexivity.
    - inversion Hg as [|? ? ? ? ? ws w g' F' Ev' R'| |]; subst. rewrite (names_det _ _ _ F' _ F) in Ev'. assert (w = v) by congruence. subst. f_equal. auto.
    - inversion Hg as [| |? ? ? ? g' Hk' R'|]; subst. f_equal. auto.
    - inversion Hg as [| | |? ? body2 ? ? g1 g2 Ef' R1' R2']; subst. rewrite Ef in Ef'. injection Ef' as <-. pose proof (IH1 _ R1'). subst g1. f_equal. auto.
  Qed.

  Lemma exec_complete n ss h h' : runs files builtins expand n ss h h' -> forall c, state_of h c -> current_file c = n ->
    exists fuel c', exec builtins (read_file files builtins expand fuel) ss c = Some (Ok c').
  Proof.
    induction 1 as [n h|n k e ss h vs v h' F Ev R IH|n k ss h h' Hk R IH|n f body ss h h1 h2 Ef R1 IH1 R2 IH2]; intros c Hs Hc.
    - exists 0%nat, c. reflexivity.
    - destruct (set_item_state h c k v Hs) as [Hs' St]. rewrite Hc in Hs'. destruct (IH _ Hs' Hc) as (fuel & c' & E). exists fuel, c'. cbn [exec].
      assert (Ee : eval builtins (cdata c) e = Ok v) by (apply (eval_iff h); [assumption|eauto]). now rewrite Ee.
    - destruct (del_item_state h c k Hs Hk) as (c1 & Ed & Hs1 & St1). assert (Cf : current_file c1 = n) by (unfold current_file in *; now rewrite St1).
      destruct (IH _ Hs1 Cf) as (fuel & c' & E). exists fuel, c'. cbn [exec]. now rewrite Ed.
    - assert (Hp : state_of h (push_file c (expand f))) by (eapply state_of_stack; [..|exact Hs]; reflexivity).
      destruct (IH1 _ Hp eq_refl) as (f1 & c1 & E1).
      assert (Er : read_file files builtins expand (S f1) f c = Some (Ok (pop_file c1))) by (cbn [read_file]; now rewrite Ef, E1).
      destruct (exec_sound _ (read_sound f1) body _ _ h Hp E1) as (h1' & R1' & Hs1 & St1).
      assert (h1' = h1).
      { symmetry. exact (runs_det _ _ _ _ R1 _ R1'). }
      subst h1'. assert (Hs2 : state_of (h ++ h1) (pop_file c1)) by (eapply state_of_stack; [..|exact Hs1]; reflexivity).
      assert (Cf : current_file (pop_file c1) = n) by (unfold current_file; cbn [pop_file cstack]; rewrite St1; exact Hc).
      destruct (IH2 _ Hs2 Cf) as (f2 & c2 & E2). exists (Nat.max (S f1) f2), c2. cbn [exec].
      rewrite (read_mono (S f1) (Nat.max (S f1) f2) ltac:(lia) _ _ _ Er).
      apply (exec_mono _ _ (read_mono f2 (Nat.max (S f1) f2) ltac:(lia)) _ _ _ E2).
  Qed.
End Reading.

Lemma state_of_empty : state_of [] empty_config.
Proof. constructor; intros k; [reflexivity|intros H; now elim H|reflexivity]. Qed.

Lemma add_cli_state h c kvs : state_of h c ->
  state_of (h ++ map (fun kv => Assigned (fst kv) (snd kv) "<command line>") kvs) (add_cli c kvs).
Proof.
  intros Hs. unfold add_cli. assert (Hp : state_of h (push_file c "<command line>")) by (eapply state_of_stack; [..|exact Hs]; reflexivity).
  assert (Hc : current_file (push_file c "<command line>") = "<command line>") by reflexivity.
  set (c0 := push_file c "<command line>") in *. clearbody c0. clear Hs.
  assert (K : state_of (h ++ map (fun kv => Assigned (fst kv) (snd kv) "<command line>") kvs) (fold_left (fun c kv => set_item c (fst kv) (snd kv)) kvs c0)).
  { revert h c0 Hp Hc. induction kvs as [|[k v] kvs IH]; intros h c0 Hp Hc; cbn [fold_left map fst snd]; [now rewrite app_nil_r|].
    destruct (set_item_state h c0 k v Hp) as [Hs St]. rewrite Hc in Hs.
    specialize (IH _ _ Hs Hc). rewrite <- app_assoc in IH. exact IH. }
  eapply state_of_stack; [..|exact K]; reflexivity.
Qed.
