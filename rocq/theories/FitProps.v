(** C91: fits; C92: fixing parameters of functions *)
From Coq Require Import String.
From Verif Require Import Base Arrays PeaksModel PeaksProofs BuffersProofs WfmModel WfmProps CorrModel CorrProps CorrMore FitModel FitSpec.
Local Open Scope Q_scope.

(** ---- C92 ---- *)
Lemma keyword_given kw k v : NoDup (map fst kw) -> keyword kw k = Some v <-> given kw k v.
Proof.
  unfold given. induction kw as [|[k' w] kw IH]; intros N; cbn; [split; [discriminate|tauto]|]. inversion N as [|? ? N1 N2]; subst. destruct (String.eqb_spec k k') as [E|E].
  - subst k'. split; [intros ->; now left|]. intros [H|H]; [congruence|]. exfalso. apply N1. apply in_map_iff. exists (k, Some v). split; [reflexivity|assumption].
  - rewrite (IH N2). split; [now right|]. intros [H|H]; [congruence|assumption].
Qed.
Lemma keyword_free kw k : NoDup (map fst kw) -> keyword kw k = None <-> forall v, ~ given kw k v.
Proof.
  intros N. destruct (keyword kw k) as [v|] eqn:E.
  - split; [discriminate|]. intros H. exfalso. apply (H v). now apply keyword_given.
  - split; [|reflexivity]. intros _ v H. apply keyword_given in H; congruence.
Qed.
Section C92.
  Variable names : list string.
  Variable kw : list (string * val).
  Hypothesis Nk : NoDup (map fst kw).
  Definition is_free (n : string) : bool := isnan (keyword kw n).
  Lemma free_list ns : free_names kw ns (filter is_free ns).
  Proof.
    induction ns as [|n ns IH]; cbn; [constructor|]. unfold is_free at 1. destruct (keyword kw n) as [v|] eqn:E; cbn; [apply (fr_fixed _ _ _ _ v); [exact (proj1 (keyword_given _ _ _ Nk) E)|assumption]|]. apply fr_free; [exact (proj1 (keyword_free _ _ Nk) E)|assumption].
  Qed.
  Lemma free_names_fun ns fs : free_names kw ns fs -> fs = filter is_free ns.
  Proof.
    induction 1 as [|n ns fs v G F IH|n ns fs G F IH]; cbn; [reflexivity| |]; unfold is_free at 1.
    - apply (keyword_given _ _ _ Nk) in G. rewrite G. assumption.
    - apply (keyword_free _ _ Nk) in G. rewrite G. cbn. congruence.
  Qed.
  Lemma supplied_fun ns pars a b : supplied kw ns pars a -> supplied kw ns pars b -> a = b.
  Proof.
    intros H. revert b. induction H as [|n ns pars a v G S IH|n ns p pars a G S IH]; intros b Hb; inversion Hb; subst; try reflexivity.
    - apply (keyword_given _ _ _ Nk) in G. match goal with K : given _ _ ?w |- _ => apply (keyword_given _ _ _ Nk) in K; rewrite K in G; injection G as -> end. f_equal. now apply IH.
    - exfalso. match goal with K : forall v, ~ given _ _ v |- _ => now apply (K v) end.
    - exfalso. match goal with K : given _ _ ?w |- _ => now apply (G w) end.
    - f_equal. now apply IH.
  Qed.
  Lemma mask_count ns : length (filter id (map isnan (all_args ns kw))) = length (filter is_free ns).
  Proof. unfold all_args. induction ns as [|n ns IH]; [reflexivity|]. cbn. unfold is_free, id in *. destruct (keyword kw n); cbn; [assumption|now rewrite IH]. Qed.
  (** the fixed entries of the array never change *)
  Definition kept (ns : list string) (args : list val) : Prop := Forall2 (fun n a => forall v, keyword kw n = Some v -> a = Some v) ns args.
  Lemma kept_start ns : kept ns (all_args ns kw).
  Proof. unfold kept, all_args. induction ns; cbn; constructor; auto. Qed.
  Lemma fill_supplied ns args : kept ns args -> forall pars, length pars = length (filter is_free ns) -> supplied kw ns pars (fill args (map isnan (all_args ns kw)) pars) /\ kept ns (fill args (map isnan (all_args ns kw)) pars).
  Proof.
    induction 1 as [|n a ns args H K IH]; intros pars L; [destruct pars; [|discriminate]; split; constructor|]. cbn [all_args map] in *. unfold all_args in *. cbn [filter] in L. unfold is_free at 1 in L. destruct (keyword kw n) as [v|] eqn:E; cbn [isnan] in *.
    - cbn [fill]. destruct (IH pars L) as [I1 I2]. rewrite (H v eq_refl). split; [apply sup_fixed; [exact (proj1 (keyword_given _ _ _ Nk) E)|assumption]|]. constructor; [|assumption]. rewrite E. intros w Hw. congruence.
    - cbn [fill]. destruct pars as [|p pars]; [discriminate|]. cbn in L. injection L as L. destruct (IH pars L) as [I1 I2]. split; [apply sup_free; [exact (proj1 (keyword_free _ _ Nk) E)|assumption]|]. constructor; [|assumption]. rewrite E. discriminate.
  Qed.
  (** a call: the value of the original function *)
  Definition answers {X Y} (fn : X -> list val -> result Y) (xp : X * list val) (r : result Y) : Prop :=
    forall fs, free_names kw names fs ->
      (length (snd xp) = length fs /\ exists a, supplied kw names (snd xp) a /\ r = fn (fst xp) a) \/
      (length (snd xp) <> length fs /\ exists p a, snd xp = [p] /\ supplied kw names (repeat p (length fs)) a /\ r = fn (fst xp) a) \/
      (length (snd xp) <> length fs /\ length (snd xp) <> 1%nat /\ r = Err ValueError).
  (** Whatever the calls made before, each call has the value of the original function with the fixed arguments and those given. *)
  Theorem C92_calls {X Y} (fn : X -> list val -> result Y) args free l : fixed_parameters names kw = Ok (args, free) -> Forall2 (answers fn) l (calls fn free args l).
  Proof using Nk.
    unfold fixed_parameters. destruct (forallb _ _); [discriminate|]. destruct (negb _); [discriminate|]. destruct (_ <? _)%Z; [discriminate|]. intros E.
    assert (free = map isnan (all_args names kw)) as -> by congruence. assert (K : kept names args) by (assert (args = all_args names kw) as -> by congruence; apply kept_start). clear E.
    revert args K. induction l as [|[x pars] l IH]; intros args K; [constructor|]. cbn [calls]. unfold fixed_fn, set_masked. rewrite mask_count. destruct (Nat.eqb_spec (length pars) (length (filter is_free names))) as [L|L].
    - destruct (fill_supplied _ _ K pars L) as [S K']. constructor; [|now apply IH]. intros fs F. apply free_names_fun in F. subst fs. left. split; [assumption|]. eexists. split; [exact S|reflexivity].
    - assert (C : (exists p, pars = [p]) \/ length pars <> 1%nat) by (destruct pars as [|p [|q pars]]; [right; discriminate|left; eauto|right; discriminate]). destruct C as [[p ->]|C].
      + destruct (fill_supplied _ _ K (repeat p (length (filter is_free names))) (repeat_length _ _)) as [S K']. constructor; [|now apply IH]. intros fs F. apply free_names_fun in F. subst fs. right; left. split; [assumption|]. eexists _, _. split; [reflexivity|]. split; [exact S|reflexivity].
      + assert (M : (match pars with [v] => Ok (fill args (map isnan (all_args names kw)) (repeat v (length (filter is_free names)))) | _ => Err ValueError end) = Err (A := list val) ValueError) by (destruct pars as [|p [|q pars]]; [reflexivity|now elim C|reflexivity]). rewrite M.
        constructor; [|now apply IH]. intros fs F. apply free_names_fun in F. subst fs. right; right. auto.
  Qed.
  (** Parameters are fixed exactly when all the names are parameters of the function, with numbers, and some is fixed and some is not. *)
  Theorem C92_accepts : NoDup names -> (exists st, fixed_parameters names kw = Ok st) <-> can_fix names kw.
  Proof using Nk.
    intros Nn. set (fixed := filter (fun n => negb (is_free n)) names). assert (Lf : (length fixed + length (filter is_free names) = length names)%nat).
    { unfold fixed. clear. induction names as [|n ns IH]; [reflexivity|]. cbn. destruct (is_free n); cbn; lia. }
    assert (If : forall n, In n fixed <-> In n names /\ exists v, given kw n v).
    { intros n. unfold fixed. rewrite filter_In. unfold is_free. destruct (keyword kw n) as [v|] eqn:E; cbn.
      - apply (keyword_given _ _ _ Nk) in E. split; [intros [? _]; eauto|tauto].
      - split; [intros [_ ?]; discriminate|]. intros [_ (v & G)]. exfalso. apply (keyword_free _ _ Nk) with (v := v) in E. contradiction. }
    assert (Nf : NoDup fixed) by now apply NoDup_filter. assert (Inc : incl fixed (map fst kw)) by (intros n Hn; apply If in Hn; destruct Hn as [_ (v & G)]; apply in_map_iff; exists (n, Some v); auto).
    assert (Le : (length fixed <= length kw)%nat) by (rewrite <- (map_length fst kw); now apply NoDup_incl_length).
    assert (A1 : forallb id (map isnan (all_args names kw)) = true <-> fixed = []).
    { unfold fixed, all_args. rewrite map_map. clear. induction names as [|n ns IH]; cbn; [tauto|]. unfold is_free, id in *. destruct (keyword kw n); cbn; [split; discriminate|exact IH]. }
    assert (A2 : existsb id (map isnan (all_args names kw)) = true <-> exists n, In n names /\ forall v, ~ given kw n v).
    { unfold all_args. rewrite map_map, existsb_exists. split.
      - intros (b & Hb & B). apply in_map_iff in Hb. destruct Hb as (n & E & Hn). exists n. split; [assumption|]. apply (keyword_free _ _ Nk). unfold id in B. subst b. now destruct (keyword kw n).
      - intros (n & Hn & G). exists true. split; [|reflexivity]. apply in_map_iff. exists n. split; [|assumption]. apply (keyword_free _ _ Nk) in G. now rewrite G. }
    unfold fixed_parameters. rewrite mask_count. split.
    - intros (st & E). destruct (forallb _ _) eqn:E1; [discriminate|]. destruct (existsb _ _) eqn:E2; [|discriminate]. cbn [negb] in E. destruct (Z.ltb_spec (Z.of_nat (length names) - Z.of_nat (length kw)) (Z.of_nat (length (filter is_free names)))) as [|L]; [discriminate|].
      assert (Ge : (length (map fst kw) <= length fixed)%nat) by (rewrite map_length; lia). pose proof (NoDup_length_incl Nf Ge Inc) as Inc'. split; [|split; [|now apply A2]].
      + intros k v H. assert (Hk : In k fixed) by (apply Inc', in_map_iff; exists (k, v); auto). apply If in Hk. destruct Hk as [Hk (w & G)]. split; [assumption|]. intros ->. unfold given in G. clear - Nk G H. induction kw as [|[a b] l IH]; [destruct G|]. cbn in Nk. inversion Nk as [|? ? N1 N2]; subst.
        destruct G as [G|G], H as [H|H]; [congruence| | |now apply IH]; exfalso; apply N1, in_map_iff; eexists; (split; [|eassumption]); cbn; congruence.
      + intros Ek. assert (F0 : fixed = []) by (rewrite Ek in Le; destruct fixed; [reflexivity|cbn in Le; lia]). apply A1 in F0. congruence.
    - intros (C1 & C2 & C3). apply A2 in C3. rewrite C3. cbn [negb]. assert (Inc' : incl (map fst kw) fixed). { intros k Hk. apply in_map_iff in Hk. destruct Hk as ([k' v] & <- & H). cbn. apply If. destruct (C1 k' v H) as [I V]. split; [assumption|]. destruct v as [v|]; [|contradiction]. exists v. exact H. }
      pose proof (NoDup_incl_length Nk Inc') as Ge. rewrite map_length in Ge. destruct (forallb _ _) eqn:E1; [assert (F0 : fixed = []) by (apply A1; reflexivity); rewrite F0 in Ge; destruct kw; [contradiction|cbn in Ge; lia]|].
      destruct (Z.ltb_spec (Z.of_nat (length names) - Z.of_nat (length kw)) (Z.of_nat (length (filter is_free names)))) as [L|L]; [lia|]. eauto.
  Qed.
  Lemma new_pars_free args free : fixed_parameters names kw = Ok (args, free) -> new_pars names free = filter is_free names.
  Proof using Type.
    unfold fixed_parameters. destruct (forallb _ _); [discriminate|]. destruct (negb _); [discriminate|]. destruct (_ <? _)%Z; [discriminate|]. intros E. assert (free = map isnan (all_args names kw)) as -> by congruence. clear E. unfold new_pars, all_args.
    induction names as [|n ns IH]; [reflexivity|]. cbn. unfold is_free at 1. destruct (keyword kw n); cbn; [assumption|now rewrite IH].
  Qed.
End C92.

(** Fixing some parameters and then others is fixing all of them at once. [fn'] is the function with the first ones fixed. *)
Theorem C92_twice {X Y} (fn fn' : X -> list val -> result Y) names kw1 kw2 a1 f1 a2 f2 : NoDup names -> NoDup (map fst kw1) -> NoDup (map fst kw2) ->
  fixed_parameters names kw1 = Ok (a1, f1) -> fixed_parameters (new_pars names f1) kw2 = Ok (a2, f2) -> (forall x pars a, supplied kw1 names pars a -> fn' x pars = fn x a) ->
  exists a f, fixed_parameters names (kw1 ++ kw2) = Ok (a, f) /\ new_pars names f = new_pars (new_pars names f1) f2 /\ forall l, calls fn' f2 a2 l = calls fn f a l.
Proof.
  intros Nn N1 N2 E1 E2 Hf. rewrite (new_pars_free _ _ _ _ E1) in *. set (fs := filter (is_free kw1) names) in *. assert (Nfs : NoDup fs) by now apply NoDup_filter.
  destruct (proj1 (C92_accepts names kw1 N1 Nn)) as (A1 & A2 & A3); [eauto|]. destruct (proj1 (C92_accepts fs kw2 N2 Nfs)) as (B1 & B2 & B3); [eauto|].
  assert (Fs : forall n, In n fs <-> In n names /\ forall v, ~ given kw1 n v). { intros n. unfold fs. rewrite filter_In. unfold is_free. split; intros [H1 H2]; (split; [assumption|]); [apply (keyword_free _ _ N1); now destruct (keyword kw1 n)|]. apply (keyword_free _ _ N1) in H2. now rewrite H2. }
  assert (D : forall k, In k (map fst kw1) -> ~ In k (map fst kw2)).
  { intros k H1 H2. apply in_map_iff in H1, H2. destruct H1 as ([k1 v1] & Ek1 & H1), H2 as ([k2 v2] & Ek2 & H2). cbn in *. subst k1 k2. destruct (B1 k v2 H2) as [I _]. apply Fs in I. destruct I as [_ I]. destruct (A1 k v1 H1) as [_ V]. destruct v1 as [v1|]; [|contradiction]. now apply (I v1). }
  assert (N : NoDup (map fst (kw1 ++ kw2))). { rewrite map_app. clear - N1 N2 D. induction kw1 as [|[k v] kw IH]; [assumption|]. cbn in *. inversion N1; subst. constructor; [|apply IH; [assumption|]; intros k' Hk'; apply D; now right]. rewrite in_app_iff. intros [I|I]; [contradiction|]. now apply (D k (or_introl eq_refl)). }
  assert (G : forall n v, given (kw1 ++ kw2) n v <-> given kw1 n v \/ given kw2 n v) by (intros; unfold given; apply in_app_iff).
  assert (C : can_fix names (kw1 ++ kw2)).
  { split; [|split].
    - intros k v H. apply in_app_or in H. destruct H as [H|H]; [now apply A1|]. destruct (B1 k v H) as [I V]. split; [now apply Fs|assumption].
    - destruct kw1; [contradiction|discriminate].
    - destruct B3 as (n & I & B3). apply Fs in I. destruct I as [I I']. exists n. split; [assumption|]. intros v Hv. apply G in Hv. destruct Hv as [Hv|Hv]; [now apply (I' v)|now apply (B3 v)]. }
  apply (C92_accepts names _ N Nn) in C. destruct C as ([a f] & E). exists a, f. split; [assumption|].
  assert (Ff : filter (is_free (kw1 ++ kw2)) names = filter (is_free kw2) fs).
  { unfold fs. rewrite filter_filter'. apply filter_ext. intros n. unfold is_free. destruct (keyword kw1 n) as [v|] eqn:K1; cbn.
    - apply (keyword_given _ _ _ N1) in K1. assert (K : given (kw1 ++ kw2) n v) by (apply G; now left). apply (keyword_given _ _ _ N) in K. now rewrite K.
    - destruct (keyword kw2 n) as [v|] eqn:K2; cbn.
      + apply (keyword_given _ _ _ N2) in K2. assert (K : given (kw1 ++ kw2) n v) by (apply G; now right). apply (keyword_given _ _ _ N) in K. now rewrite K.
      + assert (K : keyword (kw1 ++ kw2) n = None); [|now rewrite K]. apply (keyword_free _ _ N). intros v Hv. apply G in Hv. destruct Hv as [Hv|Hv]; [apply (keyword_given _ _ _ N1) in Hv|apply (keyword_given _ _ _ N2) in Hv]; congruence. }
  split; [rewrite (new_pars_free _ _ _ _ E), (new_pars_free _ _ _ _ E2); exact Ff|]. intros l.
  pose proof (C92_calls names (kw1 ++ kw2) N fn a f l E) as P. pose proof (C92_calls fs kw2 N2 fn' a2 f2 l E2) as Q'. revert P Q'. generalize (calls fn f a l) (calls fn' f2 a2 l). intros r r' P. revert r'. induction P as [|[x pars] r1 l r H P IH]; intros r' Q'; inversion Q' as [|? r1' ? r'' H' Q'']; subst; [reflexivity|]. f_equal; [|now apply IH].
  specialize (H _ (free_list _ N names)). specialize (H' _ (free_list _ N2 fs)). rewrite Ff in H. cbn [fst snd] in *.
  (* the arguments are the same *)
  assert (Same : forall ps b c, supplied kw2 fs ps b -> supplied (kw1 ++ kw2) names ps c -> fn' x b = fn x c).
  { intros ps b c Sb Sc. apply Hf. clear - Nn N N1 N2 G Sb Sc Fs. unfold fs in Sb. clear Fs fs. revert ps b c Sb Sc. induction names as [|n ns IH]; intros ps b c Sb Sc.
    - inversion Sc; subst. inversion Sb; subst. constructor.
    - inversion Nn as [|? ? Nn1 Nn2]; subst. cbn in Sb. unfold is_free at 1 in Sb. destruct (keyword kw1 n) as [v|] eqn:K1; cbn in Sb.
      + apply (keyword_given _ _ _ N1) in K1. assert (K : given (kw1 ++ kw2) n v) by (apply G; now left). inversion Sc as [|? ? ? ? w Gw Sc'|? ? ? ? ? Gf Sc']; subst; [|exfalso; now apply (Gf v)].
        apply (keyword_given _ _ _ N) in K. apply (keyword_given _ _ _ N) in Gw. assert (w = v) as -> by congruence. apply sup_fixed; [assumption|]. eapply IH; eassumption.
      + pose proof (proj1 (keyword_free _ _ N1) K1) as K1f. inversion Sb as [|? ? ? ? w Gw Sb'|? ? ? ? ? Gf Sb']; subst.
        * assert (K : given (kw1 ++ kw2) n w) by (apply G; now right). inversion Sc as [|? ? ? ? w' Gw' Sc'|? ? ? ? ? Gf' Sc']; subst; [|exfalso; now apply (Gf' w)]. apply (keyword_given _ _ _ N) in K. apply (keyword_given _ _ _ N) in Gw'. assert (w' = w) as -> by congruence. apply sup_free; [assumption|]. eapply IH; eassumption.
        * inversion Sc as [|? ? ? ? w' Gw' Sc'|? ? ? ? ? Gf' Sc']; subst; [exfalso; apply G in Gw'; destruct Gw' as [Gw'|Gw']; [now apply (K1f w')|now apply (Gf w')]|]. apply sup_free; [assumption|]. eapply IH; eassumption. }
  destruct H as [(L & b & S & ->)|[(L & p & b & Ep & S & ->)|(L & L1 & ->)]], H' as [(L' & c & S' & ->)|[(L' & p' & c & Ep' & S' & ->)|(L' & L1' & ->)]]; try congruence; try (rewrite Ep in *; cbn in *; congruence); try (rewrite Ep' in *; cbn in *; congruence).
  - now apply (Same _ _ _ S' S).
  - assert (p' = p) as -> by congruence. symmetry. symmetry. now apply (Same _ _ _ S' S).
Qed.
Print Assumptions C92_calls.
Print Assumptions C92_accepts.
Print Assumptions C92_twice.
Example C92_ex : let fn (x : Q) (a : list val) : result (list val) := Ok (Some x :: a) in
  can_fix ["mu"; "sigma"; "area"]%string [("sigma"%string, Some 2)] /\ exists st, fixed_parameters ["mu"; "sigma"; "area"]%string [("sigma"%string, Some 2)] = Ok st /\
    calls fn (snd st) (fst st) [(0, [Some 5; Some 6]); (1, [Some 7]); (2, [None; Some 3]); (3, [])] =
      [Ok [Some 0; Some 5; Some 2; Some 6]; Ok [Some 1; Some 7; Some 2; Some 7]; Ok [Some 2; None; Some 2; Some 3]; Err ValueError].
Proof.
  cbv zeta. split.
  - split; [intros k v [H|[]]; injection H as <- <-; split; [right; now left|discriminate]|]. split; [discriminate|]. exists "mu"%string. split; [now left|]. intros v [H|[]]. discriminate.
  - eexists. split; [vm_compute; reflexivity|]. vm_compute. reflexivity.
Qed.

(** ---- C91 ---- *)
Lemma masked_points {A} (f : point -> bool) (g : point -> A) pts : masked (map f pts) (map g pts) = Ok (map g (filter f pts)).
Proof.
  unfold masked. rewrite !map_length, Nat.eqb_refl. f_equal. induction pts as [|p pts IH]; [reflexivity|]. cbn. destruct (f p); cbn; now rewrite IH.
Qed.
Section C91.
  Context {Seed Cov : Type}.
  Variable func : Q -> list Q -> Q.
  Variable curve_fit : list Q -> list Q -> Seed -> option (list Q) -> bool -> result (list Q * Cov).
  Variable get_errors : Cov -> list Q.
  Notation fit := (fit func curve_fit get_errors).
  (** what is left of the points after the range *)
  Definition used (r : option (Q * Q)) (pts : list point) : list point := filter (within_range r) pts.
  Lemma range_points r pts : match r with None => pts | Some (lo, hi) => filter (fun p => in_range (p_x p) lo hi) pts end = used r pts.
  Proof.
    destruct r as [[lo hi]|]; [reflexivity|]. unfold used. cbn. induction pts; cbn; congruence.
  Qed.
  (** the weighted squares of the distances of the points to the function *)
  Definition squares (vals : list Q) (pts : list point) : Q := sumQ (map (fun p => (p_y p - func (p_x p) vals) / p_s p * ((p_y p - func (p_x p) vals) / p_s p)) pts).
  Lemma chi2_squares vals pts ndf : chi2_ndf (map p_y pts) (map (fun q => func q vals) (map p_x pts)) (map p_s pts) ndf = if (ndf =? 0)%Z then None else Some (squares vals pts / inject_Z ndf).
  Proof.
    unfold chi2_ndf. destruct (ndf =? 0)%Z; [reflexivity|]. f_equal. f_equal. unfold squares. f_equal. induction pts as [|p pts IH]; [reflexivity|]. cbn. now rewrite IH.
  Qed.
  (** the result says what the fitted values mean for these points *)
  Definition describes (pts : list point) (vals : list Q) (cov : Cov) (res : fit_result) : Prop :=
    f_values res = vals /\ f_cov res = cov /\ f_errors res = get_errors cov /\ (forall q, f_fn res q = func q vals) /\
    match f_chi2 res with
    | None => length pts = length vals
    | Some c => length pts <> length vals /\ c * inject_Z (Z.of_nat (length pts) - Z.of_nat (length vals)) == squares vals pts
    end.
  Lemma describes_fit pts vals cov : describes pts vals cov {| f_values := vals; f_errors := get_errors cov; f_cov := cov; f_fn := fun q => func q vals;
    f_chi2 := chi2_ndf (map p_y pts) (map (fun q => func q vals) (map p_x pts)) (map p_s pts) (Z.of_nat (length (map p_y pts)) - Z.of_nat (length vals)) |}.
  Proof.
    repeat split. cbn [f_chi2]. rewrite chi2_squares, map_length. destruct (Z.eqb_spec (Z.of_nat (length pts) - Z.of_nat (length vals)) 0) as [E|E]; [lia|]. split; [lia|]. field. intros H. apply E. unfold Qeq, inject_Z in H. cbn [Qnum Qden] in H. lia.
  Qed.
  (** With errors: it fits the points in range with their errors, and refuses errors that are not positive. *)
  Theorem C91_weighted pts seed r : let ps := used r pts in
    (forall p, In p ps -> p_s p <= 0 -> fit (map p_x pts) (map p_y pts) seed r (Some (map p_s pts)) = Err ValueError) /\
    ((forall p, In p ps -> 0 < p_s p) ->
      match curve_fit (map p_x ps) (map p_y ps) seed (Some (map p_s ps)) true with
      | Err e => fit (map p_x pts) (map p_y pts) seed r (Some (map p_s pts)) = Err e
      | Ok (vals, cov) => exists res, fit (map p_x pts) (map p_y pts) seed r (Some (map p_s pts)) = Ok res /\ describes ps vals cov res
      end).
  Proof.
    cbv zeta. assert (E : fit (map p_x pts) (map p_y pts) seed r (Some (map p_s pts)) = fit (map p_x (used r pts)) (map p_y (used r pts)) seed None (Some (map p_s (used r pts)))).
    { rewrite <- range_points. destruct r as [[lo hi]|]; [|reflexivity]. unfold FitModel.fit at 1. cbv zeta. rewrite map_map. rewrite !masked_points. cbn [rbind]. rewrite ?masked_points. reflexivity. }
    rewrite E. clear E. generalize (used r pts). intros ps. unfold FitModel.fit. cbn [rbind]. split.
    - intros p Hp Hs. assert (B : existsb (fun s => Qle_bool s 0) (map p_s ps) = true) by (apply existsb_exists; exists (p_s p); split; [now apply in_map|now apply Qleb_le]). now rewrite B.
    - intros P. assert (B : existsb (fun s => Qle_bool s 0) (map p_s ps) = false).
      { apply not_true_is_false. intros B. apply existsb_exists in B. destruct B as (s & Hs & B). apply in_map_iff in Hs. destruct Hs as (p & <- & Hp). apply Qleb_le in B. specialize (P p Hp). lra. }
      rewrite B, !map_length, !Nat.eqb_refl. cbn [andb negb]. destruct (curve_fit _ _ _ _ _) as [[vals cov]|e]; [|reflexivity]. cbn [rbind]. eexists. split; [reflexivity|]. pose proof (describes_fit ps vals cov) as D. rewrite map_length in D. exact D.
  Qed.
  (** Without errors: it fits the points in range, and the chi2 is that of errors of one. *)
  Theorem C91_unweighted pts seed r : (forall p, In p pts -> p_s p = 1) -> let ps := used r pts in
      match curve_fit (map p_x ps) (map p_y ps) seed None false with
      | Err e => fit (map p_x pts) (map p_y pts) seed r None = Err e
      | Ok (vals, cov) => exists res, fit (map p_x pts) (map p_y pts) seed r None = Ok res /\ describes ps vals cov res
      end.
  Proof.
    cbv zeta. intros One. assert (E : fit (map p_x pts) (map p_y pts) seed r None = fit (map p_x (used r pts)) (map p_y (used r pts)) seed None None).
    { rewrite <- range_points. destruct r as [[lo hi]|]; [|reflexivity]. unfold FitModel.fit at 1. cbv zeta. rewrite map_map. rewrite !masked_points. cbn [rbind]. rewrite ?masked_points. reflexivity. }
    rewrite E. clear E. assert (One' : forall p, In p (used r pts) -> p_s p = 1) by (intros p Hp; apply filter_In in Hp; now apply One). revert One'. generalize (used r pts). intros ps One'. unfold FitModel.fit. cbn [rbind].
    assert (R : repeat 1 (length (map p_y ps)) = map p_s ps) by (rewrite map_length; clear - One'; induction ps as [|p ps IH]; [reflexivity|]; cbn; rewrite (One' p (or_introl eq_refl)), IH; [reflexivity|intros; apply One'; now right]).
    rewrite R. assert (B : existsb (fun s => Qle_bool s 0) (map p_s ps) = false).
    { apply not_true_is_false. intros B. apply existsb_exists in B. destruct B as (s & Hs & B). apply in_map_iff in Hs. destruct Hs as (p & <- & Hp). rewrite (One' p Hp) in B. discriminate. }
    rewrite B, !map_length, !Nat.eqb_refl. cbn [andb negb]. destruct (curve_fit _ _ _ _ _) as [[vals cov]|e]; [|reflexivity]. cbn [rbind]. eexists. split; [reflexivity|]. pose proof (describes_fit ps vals cov) as D. rewrite map_length in D. exact D.
  Qed.
  (** The chi2 is zero exactly when the function goes through all the points, and with more points than parameters it is not negative. *)
  Theorem C91_exact pts vals cov res c : describes pts vals cov res -> (forall p, In p pts -> 0 < p_s p) -> f_chi2 res = Some c ->
    (c == 0 <-> forall p, In p pts -> f_fn res (p_x p) == p_y p) /\ ((length vals < length pts)%nat -> 0 <= c).
  Proof.
    intros (_ & _ & _ & Hf & D) P E. rewrite E in D. destruct D as [L D]. set (k := inject_Z _) in D. assert (K : ~ k == 0) by (unfold k; intros H; unfold Qeq, inject_Z in H; cbn [Qnum Qden] in H; lia).
    assert (S0 : 0 <= squares vals pts) by (unfold squares; clear; induction pts as [|p pts IH]; [cbn; lra|]; cbn [map]; unfold sumQ in *; cbn; set (u := _ / _); nra).
    split.
    - assert (Z : c == 0 <-> squares vals pts == 0) by (rewrite <- D; split; [intros ->; ring|]; intros H; apply Qmult_integral in H; tauto). rewrite Z. clear - P Hf. unfold squares. induction pts as [|p pts IH]; [cbn; split; [intros _ p []|lra]|]. cbn [map].
      assert (S1 : forall l, 0 <= sumQ (map (fun p => (p_y p - func (p_x p) vals) / p_s p * ((p_y p - func (p_x p) vals) / p_s p)) l)) by (clear; induction l as [|p pts IH]; [cbn; lra|]; cbn [map]; unfold sumQ in *; cbn; set (u := _ / _); nra).
      specialize (S1 pts). specialize (IH (fun q Hq => P q (or_intror Hq))). cbn [sumQ]. set (rest := sumQ _) in *. pose proof (P p (or_introl eq_refl)) as Pp. set (u := (p_y p - func (p_x p) vals) / p_s p). assert (U : u * p_s p == p_y p - func (p_x p) vals) by (unfold u; field; lra). split.
      + intros H q [<-|Hq]; [|apply IH; [nra|assumption]]. assert (u * u == 0) by nra. assert (u == 0) by (apply Qmult_integral in H0; tauto). rewrite Hf. rewrite H1 in U. lra.
      + intros H. assert (R : rest == 0) by (apply IH; intros q Hq; apply H; now right). pose proof (H p (or_introl eq_refl)) as Hp. rewrite Hf in Hp. assert (u == 0) by (unfold u; rewrite Hp; field; lra). rewrite H0, R. ring.
    - intros Lt. assert (0 < k) by (unfold k; change 0 with (inject_Z 0); rewrite <- Zlt_Qlt; lia). nra.
  Qed.
End C91.
Print Assumptions C91_weighted.
Print Assumptions C91_unweighted.
Print Assumptions C91_exact.
(** a line through three points; the one out of range has an error of zero, which does not matter *)
Example C91_ex : exists res, fit (fun x v => nth 0 v 0 * x) (fun _ _ (_ : unit) s a => match s with Some _ => Ok ([2], a) | None => Err (Other 70) end) (fun _ => [1 # 10]) [0; 1; 2; 3] [0; 2; 5; 7] tt (Some (0, 3)) (Some [1; 1; 2; 0]) = Ok res /\
  f_values res = [2] /\ f_cov res = true /\ exists c, f_chi2 res = Some c /\ c == 1 # 8.
Proof. eexists. split; [vm_compute; reflexivity|]. split; [reflexivity|]. split; [reflexivity|]. eexists. split; [reflexivity|reflexivity]. Qed.
