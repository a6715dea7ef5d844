(** Lemmas for C124: the spectra of an event after another, and what the program of a calibration city writes *)
From Coq Require Import String.
From Verif Require Import Base ConfigModel TablesModel PeaksModel CalibModel BuffersModel HistModel IreneModel CalcModel.
From Verif Require Import FrunModel IsiModel JobModel HaltBase HaltProofs HaltStop HaltStop2 CalfModel CalfSpec.
Local Open Scope nat_scope.

(** ---- sums of histograms ---- *)
Notation plus := (map2 (map2 Nat.add)).
Lemma map2_len {A B C} (f : A -> B -> C) a : forall b, List.length a = List.length b -> List.length (map2 f a b) = List.length a.
Proof. induction a as [|x a IH]; intros [|y b] H; try discriminate; [reflexivity|]. cbn. f_equal. apply IH. now injection H. Qed.
Lemma map2_assoc {A} (f : A -> A -> A) : (forall x y z, f (f x y) z = f x (f y z)) -> forall a b c, map2 f (map2 f a b) c = map2 f a (map2 f b c).
Proof. intros H. induction a as [|x a IH]; intros [|y b] [|z c]; try reflexivity. cbn. now rewrite H, IH. Qed.
Lemma plus_assoc a b c : plus (plus a b) c = plus a (plus b c).
Proof. apply map2_assoc. apply map2_assoc. intros. lia. Qed.
Lemma map2_repeat {A B C} (f : A -> B -> C) y a : map (fun x => f x y) a = map2 f a (repeat y (List.length a)).
Proof. induction a as [|x a IH]; [reflexivity|]. cbn. now rewrite IH. Qed.
Definition shaped (nb : nat) (h : list (list nat)) : Prop := Forall (fun r => List.length r = nb) h.
Lemma plus_zeros nb n h : List.length h = n -> shaped nb h -> plus h (repeat (repeat 0 nb) n) = h.
Proof.
  intros <-. induction 1 as [|r h Hr H IH]; [reflexivity|]. cbn. rewrite IH. f_equal. subst nb. clear. induction r as [|x r IHr]; [reflexivity|]. cbn. now rewrite IHr, Nat.add_0_r.
Qed.
Lemma plus_shaped nb a b : shaped nb a -> shaped nb b -> shaped nb (plus a b).
Proof.
  intros Ha. revert b. induction Ha as [|r a Hr Ha IH]; intros [|s b] Hb; [constructor|constructor|constructor|]. inversion Hb as [|? ? Hs Hb']; subst. cbn. constructor; [|now apply IH]. rewrite map2_len; [reflexivity|congruence].
Qed.
Lemma nth_plus a : forall b s, List.length a = List.length b -> nth s (plus a b) [] = map2 Nat.add (nth s a []) (nth s b []).
Proof. induction a as [|r a IH]; intros [|q b] s H; try discriminate; [destruct s; reflexivity|]. destruct s; [reflexivity|]. cbn. apply IH. now injection H. Qed.
Lemma nth_add r : forall q b, List.length r = List.length q -> nth b (map2 Nat.add r q) 0 = nth b r 0 + nth b q 0.
Proof. induction r as [|x r IH]; intros [|y q] b H; try discriminate; [destruct b; reflexivity|]. destruct b; [reflexivity|]. cbn. apply IH. now injection H. Qed.
Lemma nth_shaped nb h s : shaped nb h -> s < List.length h -> List.length (nth s h []) = nb.
Proof. intros H Hs. unfold shaped in H. rewrite Forall_forall in H. apply H. now apply nth_In. Qed.
Lemma plus_sum nb a b : List.length a = List.length b -> shaped nb a -> shaped nb b -> sum_of a b (plus a b).
Proof.
  intros L Ha Hb. assert (Lp : List.length (plus a b) = List.length a) by now apply map2_len.
  assert (R : forall s, List.length (nth s a []) = List.length (nth s b [])).
  { intros s. destruct (Nat.lt_ge_cases s (List.length a)) as [H|H]; [rewrite (nth_shaped nb a s), (nth_shaped nb b s); auto; lia|]. rewrite !nth_overflow by lia. reflexivity. }
  split; [|split].
  - split; [congruence|]. intros s. rewrite nth_plus by exact L. now rewrite map2_len.
  - split; [congruence|]. intros s. rewrite nth_plus by exact L. rewrite map2_len; auto.
  - intros s b0. unfold count. rewrite nth_plus by exact L. now apply nth_add.
Qed.
Lemma sum_unique a b h h' : sum_of a b h -> sum_of a b h' -> h = h'.
Proof.
  intros ((L1 & R1) & _ & C1) ((L2 & R2) & _ & C2). apply (nth_ext _ _ [] []); [congruence|]. intros s _. apply (nth_ext _ _ 0 0); [congruence|]. intros b0 _. specialize (C1 s b0). specialize (C2 s b0). unfold count in *. congruence.
Qed.

(** ---- one of the spectra ---- *)
Section Branch.
  Variable edges : list Q.
  Variable f : @branch rwf_event.
  Definition contribution (w : rwf_event) : result (list (list nat)) := rbind (f w) (fun v => bin_waveforms v edges).
  Fixpoint fold1 (a : list (list nat)) (events : list rwf_event) : result (list (list nat)) :=
    match events with [] => Ok a | w :: events => rbind (contribution w) (fun h => rbind (add_broadcast a h) (fun a => fold1 a events)) end.
  Lemma fold1_app a e1 : forall e2, fold1 a (e1 ++ e2) = rbind (fold1 a e1) (fun b => fold1 b e2).
  Proof. revert a. induction e1 as [|w e1 IH]; intros a e2; [reflexivity|]. cbn. destruct (contribution w) as [h|]; [|reflexivity]. cbn. destruct (add_broadcast a h); [|reflexivity]. cbn. apply IH. Qed.

  Lemma keeps a h a' : List.length a <> 1 -> add_broadcast a h = Ok a' -> List.length a' = List.length a.
  Proof.
    unfold add_broadcast. intros H. destruct (Nat.eqb_spec (List.length a) (List.length h)) as [E|E]; [intros X; injection X as <-; now apply map2_len|].
    destruct a as [|r [|r2 a]]; [| |]; destruct h as [|h0 [|h1 h]]; cbn in *; try discriminate; try lia; intros X; injection X as <-; cbn; rewrite ?map_length; reflexivity.
  Qed.
  Lemma fold1_keeps events : forall a a', List.length a <> 1 -> fold1 a events = Ok a' -> List.length a' = List.length a.
  Proof.
    induction events as [|w events IH]; intros a a' H; cbn; [intros X; now injection X as <-|]. destruct (contribution w) as [h|]; [|discriminate]. cbn. destruct (add_broadcast a h) as [b|] eqn:B; [|discriminate]. cbn. intros X.
    pose proof (keeps a h b H B) as L. rewrite (IH b a'); congruence.
  Qed.
  (** an event adds the same whatever has been accumulated *)
  Lemma adds n a h a' : List.length a = n -> add_broadcast a h = Ok a' -> List.length a' = n -> exists d, List.length d = n /\ (forall nb, shaped nb h -> shaped nb d) /\ forall x, List.length x = n -> add_broadcast x h = Ok (plus x d).
  Proof.
    unfold add_broadcast. intros La. destruct (Nat.eqb_spec (List.length a) (List.length h)) as [E|E].
    - intros _ _. exists h. split; [congruence|]. split; [auto|]. intros x Hx. replace (List.length x =? List.length h) with true by (symmetry; apply Nat.eqb_eq; congruence). reflexivity.
    - destruct h as [|h0 [|h1 h]].
      + destruct a as [|r [|r2 a]]; cbn in *; try discriminate; try congruence. intros X. injection X as <-. cbn. congruence.
      + intros _ _. exists (repeat h0 n). split; [apply repeat_length|]. split; [intros nb Hs; inversion Hs; subst; apply Forall_forall; intros r Hr; apply repeat_spec in Hr; now subst|]. intros x Hx.
        replace (List.length x =? List.length [h0]) with false by (symmetry; apply Nat.eqb_neq; cbn in *; congruence). cbn. f_equal. rewrite <- Hx. destruct x as [|? [|]]; cbn; rewrite <- ?map2_repeat; reflexivity.
      + destruct a as [|r [|r2 a]]; cbn in E |- *; try discriminate. intros X. injection X as <-. cbn in *. rewrite map_length. lia.
  Qed.
  Lemma stays n a h a' events h' : List.length a = n -> add_broadcast a h = Ok a' -> fold1 a' events = Ok h' -> List.length h' = n -> List.length a' = n.
  Proof.
    intros La B F L. destruct (Nat.eq_dec n 1) as [->|N].
    - destruct (Nat.eq_dec (List.length a') 1) as [|M]; [assumption|]. rewrite (fold1_keeps _ _ _ M F) in L. congruence.
    - rewrite <- La. apply (keeps a h); [congruence|exact B].
  Qed.
  Lemma fold1_shift n events : forall a h, List.length a = n -> fold1 a events = Ok h -> List.length h = n -> forall x, List.length x = n -> fold1 (plus x a) events = Ok (plus x h).
  Proof.
    induction events as [|w events IH]; intros a h La; cbn [fold1]; [intros X; injection X as <-; reflexivity|]. destruct (contribution w) as [c|]; [|discriminate]. cbn [rbind]. destruct (add_broadcast a c) as [b|] eqn:B; [|discriminate]. cbn [rbind]. intros F L x Lx.
    pose proof (stays n a c b events h La B F L) as Lb. destruct (adds n a c b La B Lb) as (d & Ld & _ & D). rewrite (D a La) in B. injection B as <-. rewrite (D (plus x a)) by (rewrite map2_len; congruence). cbn [rbind]. rewrite plus_assoc. now apply IH.
  Qed.
  Lemma fold1_other n events : forall a h, List.length a = n -> fold1 a events = Ok h -> List.length h = n -> forall x, List.length x = n -> exists h', fold1 x events = Ok h' /\ List.length h' = n.
  Proof.
    induction events as [|w events IH]; intros a h La; cbn [fold1]; [intros _ _ x Lx; exists x; auto|]. destruct (contribution w) as [c|]; [|discriminate]. cbn [rbind]. destruct (add_broadcast a c) as [b|] eqn:B; [|discriminate]. cbn [rbind]. intros F L x Lx.
    pose proof (stays n a c b events h La B F L) as Lb. destruct (adds n a c b La B Lb) as (d & Ld & _ & D). rewrite (D x Lx). cbn [rbind]. apply (IH b h Lb F L). rewrite map2_len; congruence.
  Qed.
  Lemma hist_len l h : np_histogram l edges = Ok h -> List.length h = List.length edges - 1.
  Proof.
    unfold np_histogram. destruct (decreasing edges); [discriminate|]. assert (G : List.length (differences (cumulative_counts edges l)) = List.length edges - 1).
    { assert (C : List.length (cumulative_counts edges l) = List.length edges). { clear. induction edges as [|e [|e2 es] IH]; [reflexivity|reflexivity|]. cbn [cumulative_counts List.length] in *. f_equal. exact IH. }
      rewrite <- C. clear. induction (cumulative_counts edges l) as [|a [|b r] IH]; [reflexivity|reflexivity|]. cbn [differences List.length] in *. rewrite IH. lia. }
    destruct edges as [|e es]; [destruct l; [|discriminate]|]; intros X; injection X as <-; exact G.
  Qed.
  Lemma contribution_shaped w h : contribution w = Ok h -> shaped (List.length edges - 1) h.
  Proof.
    unfold contribution. destruct (f w) as [v|]; [|discriminate]. cbn [rbind]. unfold bin_waveforms. destruct v as [|x v]; [discriminate|]. generalize (x :: v). clear. intros l. revert h. induction l as [|x l IH]; intros h; cbn [rmap]; [intros X; injection X as <-; constructor|].
    destruct (np_histogram x edges) as [r|] eqn:R; [|discriminate]. cbn [rbind]. destruct (rmap _ l) as [rs|]; [|discriminate]. cbn [rbind]. intros X. injection X as <-. constructor; [now apply hist_len in R|now apply IH].
  Qed.
  Lemma fold1_shaped n events : forall a h, List.length a = n -> shaped (List.length edges - 1) a -> fold1 a events = Ok h -> List.length h = n -> shaped (List.length edges - 1) h.
  Proof.
    induction events as [|w events IH]; intros a h La Sa; cbn [fold1]; [intros X; now injection X as <-|]. destruct (contribution w) as [c|] eqn:Cw; [|discriminate]. cbn [rbind]. destruct (add_broadcast a c) as [b|] eqn:B; [|discriminate]. cbn [rbind]. intros F L.
    pose proof (stays n a c b events h La B F L) as Lb. destruct (adds n a c b La B Lb) as (d & Ld & Sd & D). rewrite (D a La) in B. injection B as <-. apply (IH (plus a d) h); [rewrite map2_len; congruence| |exact F|exact L]. apply plus_shaped; [exact Sa|]. apply Sd. now apply contribution_shaped in Cw.
  Qed.
  Lemma zeros_len n : List.length (zeros n edges) = n. Proof. apply repeat_length. Qed.
  Lemma zeros_shaped n : shaped (List.length edges - 1) (zeros n edges).
  Proof. apply Forall_forall. intros r Hr. apply repeat_spec in Hr. subst. apply repeat_length. Qed.
  (** the events of two jobs *)
  Lemma fold1_sum n e1 e2 h : fold1 (zeros n edges) (e1 ++ e2) = Ok h /\ List.length h = n <->
    exists h1 h2, (fold1 (zeros n edges) e1 = Ok h1 /\ List.length h1 = n) /\ (fold1 (zeros n edges) e2 = Ok h2 /\ List.length h2 = n) /\ sum_of h1 h2 h.
  Proof.
    rewrite fold1_app. split.
    - intros [F L]. destruct (fold1 (zeros n edges) e1) as [h1|] eqn:F1; [|discriminate]. cbn [rbind] in F.
      assert (L1 : List.length h1 = n). { destruct (Nat.eq_dec n 1) as [->|N]; [|rewrite <- (zeros_len n); apply (fold1_keeps e1); [now rewrite zeros_len|exact F1]]. destruct (Nat.eq_dec (List.length h1) 1) as [|M]; [assumption|]. rewrite (fold1_keeps _ _ _ M F) in L. congruence. }
      destruct (fold1_other n e2 h1 h L1 F L _ (zeros_len n)) as (h2 & F2 & L2). exists h1, h2. split; [auto|]. split; [auto|].
      pose proof (fold1_shaped n e1 _ h1 (zeros_len n) (zeros_shaped n) F1 L1) as S1. pose proof (fold1_shaped n e2 _ h2 (zeros_len n) (zeros_shaped n) F2 L2) as S2.
      pose proof (fold1_shift n e2 _ h2 (zeros_len n) F2 L2 h1 L1) as X. unfold zeros in X at 1. rewrite plus_zeros in X by assumption. rewrite X in F. injection F as <-. apply (plus_sum (List.length edges - 1)); auto; congruence.
    - intros (h1 & h2 & [F1 L1] & [F2 L2] & Su). rewrite F1. cbn [rbind].
      pose proof (fold1_shaped n e1 _ h1 (zeros_len n) (zeros_shaped n) F1 L1) as S1. pose proof (fold1_shaped n e2 _ h2 (zeros_len n) (zeros_shaped n) F2 L2) as S2.
      pose proof (fold1_shift n e2 _ h2 (zeros_len n) F2 L2 h1 L1) as X. unfold zeros in X at 1. rewrite plus_zeros in X by assumption. rewrite X.
      assert (Su' : sum_of h1 h2 (plus h1 h2)) by (apply (plus_sum (List.length edges - 1)); auto; congruence). rewrite (sum_unique _ _ _ _ Su Su'). split; [reflexivity|]. rewrite map2_len; congruence.
  Qed.
End Branch.

(** ---- all the spectra ---- *)
Section Spectra.
  Variable edges : list Q.
  Definition gather (fa : @branch rwf_event * list (list nat)) (events : list rwf_event) (a : list (list nat)) : Prop := fold1 edges (fst fa) (snd fa) events = Ok a.
  Lemma one_gather bs w : forall accs accs', List.length accs = List.length bs -> (one_event edges bs accs w = Ok accs' <-> Forall2 (fun fa a => gather fa [w] a) (combine bs accs) accs').
  Proof.
    induction bs as [|f bs IH]; intros [|a accs] accs' L; try discriminate; cbn [one_event combine]; [split; [intros X; injection X as <-; constructor|intros X; inversion X; reflexivity]|].
    specialize (IH accs). unfold gather at 1. split.
    - destruct (f w) as [v|] eqn:Fv; [|discriminate]. cbn [rbind]. destruct (bin_waveforms v edges) as [h|] eqn:Bv; [|discriminate]. cbn [rbind]. destruct (add_broadcast a h) as [a'|] eqn:A; [|discriminate]. cbn [rbind].
      destruct (one_event edges bs accs w) as [r|] eqn:R; [|discriminate]. cbn [rbind]. intros X. injection X as <-. constructor; [|apply IH; [now injection L|reflexivity]]. cbn [fst snd fold1]. unfold contribution. rewrite Fv. cbn [rbind]. rewrite Bv. cbn [rbind]. rewrite A. reflexivity.
    - intros X. inversion X as [|? a' ? r G Gs]; subst. cbn [fst snd fold1] in G. unfold contribution in G. destruct (f w) as [v|]; [|discriminate]. cbn [rbind] in *. destruct (bin_waveforms v edges) as [h|]; [|discriminate]. cbn [rbind] in *.
      destruct (add_broadcast a h) as [b|]; [|discriminate]. cbn [rbind] in *. injection G as ->. apply IH in Gs; [|now injection L]. rewrite Gs. reflexivity.
  Qed.
  Lemma all_gather bs events : forall accs accs', List.length accs = List.length bs -> (all_events edges bs accs events = Ok accs' <-> Forall2 (fun fa a => gather fa events a) (combine bs accs) accs').
  Proof.
    induction events as [|w events IH]; intros accs accs' L; cbn [all_events].
    - unfold gather. cbn [fold1]. split.
      + intros X. injection X as <-. revert accs L. induction bs as [|f bs IH]; intros [|a accs] L; try discriminate; constructor; [reflexivity|apply IH; now injection L].
      + intros X. f_equal. revert accs accs' L X. induction bs as [|f bs IH]; intros [|a accs] accs' L X; try discriminate; inversion X as [|? ? ? ? H1 H2]; subst; [reflexivity|]. cbn in H1. injection H1 as ->. f_equal. apply IH; [now injection L|assumption].
    - split.
      + destruct (one_event edges bs accs w) as [r|] eqn:R; [|discriminate]. cbn [rbind]. intros X. apply one_gather in R; [|exact L]. assert (Lr : List.length r = List.length bs) by (apply Forall2_len in R; rewrite combine_length in R; lia). apply IH in X; [|exact Lr]. clear IH.
        revert accs accs' r L Lr R X. induction bs as [|f bs IHb]; intros [|a accs] accs' [|b r] L Lr R X; try discriminate; [inversion X; subst; constructor|]. inversion R as [|? ? ? ? R1 R2]; inversion X as [|? ? ? ? X1 X2]; subst. cbn [combine]. constructor; [|eapply IHb; try eassumption; [now injection L|now injection Lr]].
        unfold gather in *. change (w :: events) with ([w] ++ events). rewrite fold1_app. cbn [fst snd] in *. rewrite R1. exact X1.
      + intros X. assert (G : exists r, Forall2 (fun fa a => gather fa [w] a) (combine bs accs) r /\ Forall2 (fun fa a => gather fa events a) (combine bs r) accs' /\ List.length r = List.length bs).
        { clear IH. revert accs accs' L X. induction bs as [|f bs IHb]; intros [|a accs] accs' L X; try discriminate; [inversion X; exists []; repeat split; constructor|]. inversion X as [|? a' ? accs2 X1 X2]; subst. destruct (IHb accs accs2 ltac:(now injection L) X2) as (r & R1 & R2 & R3).
          unfold gather in X1. change (w :: events) with ([w] ++ events) in X1. rewrite fold1_app in X1. cbn [fst snd] in X1. destruct (fold1 edges f a [w]) as [b|] eqn:B; [|discriminate]. exists (b :: r). cbn [combine]. repeat split; [constructor; [exact B|exact R1]|constructor; [exact X1|exact R2]|cbn; congruence]. }
        destruct G as (r & R1 & R2 & R3). apply one_gather in R1; [|exact L]. rewrite R1. cbn [rbind]. now apply IH.
  Qed.
  (** the spectra over all the events of two jobs *)
  Definition complete (n : nat) (bs : list (@branch rwf_event)) (events : list rwf_event) (hs : list (list (list nat))) : Prop :=
    all_events edges bs (repeat (zeros n edges) (List.length bs)) events = Ok hs /\ Forall (fun h => List.length h = n) hs.
  Lemma complete_each n bs events hs : complete n bs events hs <-> Forall2 (fun f h => fold1 edges f (zeros n edges) events = Ok h /\ List.length h = n) bs hs.
  Proof.
    unfold complete. rewrite all_gather by apply repeat_length. split.
    - intros [G F]. revert hs G F. induction bs as [|f bs IH]; intros hs G F; cbn in G; inversion G as [|? h ? hs' G1 G2]; subst; [constructor|]. inversion F as [|? ? F1 F2]; subst. constructor; [split; [exact G1|reflexivity]|now apply IH].
    - intros H. induction H as [|f h bs hs [H1 H2] H [IH1 IH2]]; cbn; [split; constructor|]. split; constructor; assumption.
  Qed.
  Lemma complete_sum n bs e1 e2 hs : complete n bs (e1 ++ e2) hs <-> exists hs1 hs2, complete n bs e1 hs1 /\ complete n bs e2 hs2 /\ List.length hs1 = List.length hs /\ List.length hs2 = List.length hs /\
    forall k h1 h2 h, nth_error hs1 k = Some h1 -> nth_error hs2 k = Some h2 -> nth_error hs k = Some h -> sum_of h1 h2 h.
  Proof.
    rewrite complete_each. split.
    - intros H. assert (G : exists hs1 hs2, Forall2 (fun f h => fold1 edges f (zeros n edges) e1 = Ok h /\ List.length h = n) bs hs1 /\ Forall2 (fun f h => fold1 edges f (zeros n edges) e2 = Ok h /\ List.length h = n) bs hs2 /\ List.length hs1 = List.length hs /\ List.length hs2 = List.length hs /\
        forall k h1 h2 h, nth_error hs1 k = Some h1 -> nth_error hs2 k = Some h2 -> nth_error hs k = Some h -> sum_of h1 h2 h).
      { induction H as [|f h bs hs H1 H (hs1 & hs2 & A & B & C & D & E)]; [exists [], []; split; [constructor|split; [constructor|split; [reflexivity|split; [reflexivity|intros [|k] ? ? ? H; discriminate]]]]|]. apply fold1_sum in H1. destruct H1 as (h1 & h2 & F1 & F2 & Su). exists (h1 :: hs1), (h2 :: hs2).
        split; [constructor; assumption|split; [constructor; assumption|split; [cbn; congruence|split; [cbn; congruence|]]]]. intros [|k] x1 x2 x X1 X2 X; cbn in X1, X2, X; [injection X1 as <-; injection X2 as <-; injection X as <-; exact Su|eauto]. }
      destruct G as (hs1 & hs2 & A & B & C & D & E). exists hs1, hs2. rewrite !complete_each. auto.
    - intros (hs1 & hs2 & A & B & C & D & E). rewrite complete_each in A, B. revert hs hs2 B C D E. induction A as [|f h1 bs hs1 A1 A IH]; intros hs hs2 B C D E; inversion B as [|? h2 ? hs2' B1 B2]; subst; destruct hs as [|h hs]; try discriminate; constructor.
      + apply fold1_sum. exists h1, h2. split; [exact A1|]. split; [exact B1|]. apply (E 0); reflexivity.
      + apply (IH hs hs2'); auto. intros k x1 x2 x. apply (E (S k)).
  Qed.
End Spectra.

(** ---- the program ---- *)
Section Program.
  Context {S : Type}.
  Variable su : setup.
  Definition with_events (events : list rwf_event) (t : calf S) : calf S :=
    {| cf_runs := cf_runs t ++ map w_run events; cf_events := cf_events t ++ map w_event events; cf_spectra := cf_spectra t; cf_sensors := cf_sensors t |}.
  Definition with_spectra (l : list (string * list (list (list nat)))) (t : calf S) : calf S :=
    {| cf_runs := cf_runs t; cf_events := cf_events t; cf_spectra := cf_spectra t ++ l; cf_sensors := cf_sensors t |}.
  Lemma with_nil t : with_events [] t = t. Proof. destruct t. unfold with_events. cbn. now rewrite !app_nil_r. Qed.
  Lemma spectra_nil t : with_spectra [] t = t. Proof. destruct t. unfold with_spectra. cbn. now rewrite !app_nil_r. Qed.
  Lemma with_cons w events t : with_events events (write_event w (write_run w t)) = with_events (w :: events) t.
  Proof. unfold with_events, write_event, write_run. cbn. now rewrite <- !app_assoc. Qed.
  Lemma spectra_app a b t : with_spectra b (with_spectra a t) = with_spectra (a ++ b) t.
  Proof. unfold with_spectra. cbn. now rewrite <- app_assoc. Qed.
  Lemma send_ok events : forall accs accs' t, all_events (su_edges su) (su_branches su) accs events = Ok accs' -> send_events (S := S) su accs events t = (with_events events t, Ok accs').
  Proof.
    induction events as [|w events IH]; intros accs accs' t; cbn [all_events send_events]; [intros X; injection X as <-; rewrite with_nil; reflexivity|]. destruct (one_event _ _ accs w) as [r|] eqn:R; [|discriminate]. cbn [rbind]. intros X.
    rewrite bind_call, !bind_put, <- with_cons. now apply IH.
  Qed.
  Lemma send_err events : forall accs e t, all_events (su_edges su) (su_branches su) accs events = Err e ->
    exists before w after a, events = before ++ w :: after /\ all_events (su_edges su) (su_branches su) accs before = Ok a /\ one_event (su_edges su) (su_branches su) a w = Err e /\ send_events (S := S) su accs events t = (with_events before t, Err e).
  Proof.
    induction events as [|w events IH]; intros accs e t; cbn [all_events send_events]; [discriminate|]. rewrite bind_call. destruct (one_event _ _ accs w) as [r|x] eqn:R.
    - cbn [rbind]. intros X. rewrite !bind_put. destruct (IH r e (write_event w (write_run w t)) X) as (b & v & a & acc & -> & A & O & E). exists (w :: b), v, a, acc. cbn [app all_events]. rewrite R. cbn [rbind]. rewrite E, with_cons. auto.
    - cbn [rbind]. intros X. injection X as ->. exists [], w, events, accs. cbn [app all_events]. rewrite with_nil. auto.
  Qed.
  Lemma fill_snoc h name l : fill_last h (l ++ [(name, [])]) = l ++ [(name, [h])].
  Proof. induction l as [|x l IH]; [reflexivity|]. cbn [app fill_last]. rewrite IH. destruct x as [nm rows], l; reflexivity. Qed.
  Definition filled (x : string * list (list nat)) : string * list (list (list nat)) := (fst x, [snd x]).
  Lemma write_ok x (t : calf S) : List.length (snd x) = su_sensors su -> write_spectrum su x t = (with_spectra [filled x] t, Ok tt).
  Proof.
    intros H. unfold write_spectrum. rewrite bind_put, bind_call. unfold write_hist. rewrite H, Nat.eqb_refl. cbn. unfold fill_spectrum, new_spectrum, with_spectra. cbn. now rewrite fill_snoc.
  Qed.
  Lemma write_err x (t : calf S) : List.length (snd x) <> su_sensors su -> write_spectrum su x t = (with_spectra [(fst x, [])] t, Err ValueError).
  Proof. intros H. unfold write_spectrum. rewrite bind_put, bind_call. unfold write_hist. apply Nat.eqb_neq in H. rewrite H. reflexivity. Qed.
  Lemma writes_ok l : forall t : calf S, Forall (fun x => List.length (snd x) = su_sensors su) l -> each l (write_spectrum su) t = (with_spectra (map filled l) t, Ok tt).
  Proof.
    induction l as [|x l IH]; intros t H; cbn [each map]; [now rewrite spectra_nil|]. inversion H; subst. rewrite (bind_ok _ _ _ _ _ (write_ok x t ltac:(assumption))), IH by assumption. now rewrite spectra_app.
  Qed.
  Lemma writes_cases l : Forall (fun x : string * list (list nat) => List.length (snd x) = su_sensors su) l \/ exists before x after, l = before ++ x :: after /\ Forall (fun x => List.length (snd x) = su_sensors su) before /\ List.length (snd x) <> su_sensors su.
  Proof.
    induction l as [|x l IH]; [left; constructor|]. destruct (Nat.eq_dec (List.length (snd x)) (su_sensors su)) as [E|N]; [|right; exists [], x, l; repeat split; auto].
    destruct IH as [H|(b & y & a & -> & H1 & H2)]; [left; constructor; assumption|]. right. exists (x :: b), y, a. repeat split; auto.
  Qed.
  Lemma each_app {T A} (p : A -> prog T unit) a : forall b t, each (a ++ b) p t = match each a p t with (t1, Ok _) => each b p t1 | (t1, Err e) => (t1, Err e) end.
  Proof. induction a as [|x a IH]; intros b t; [reflexivity|]. cbn [app each]. rewrite !exec_bind. destruct (p x t) as [t1 [?|?]]; [apply IH|reflexivity]. Qed.
  Lemma writes_err b x a (t : calf S) : Forall (fun x => List.length (snd x) = su_sensors su) b -> List.length (snd x) <> su_sensors su ->
    each (b ++ x :: a) (write_spectrum su) t = (with_spectra (map filled b ++ [(fst x, [])]) t, Err ValueError).
  Proof. intros H N. rewrite each_app, writes_ok by exact H. cbn [each]. rewrite exec_bind, write_err by exact N. now rewrite spectra_app. Qed.
End Program.
