(** A network that treats each item as a program does behaves as the program *)
From Coq Require Import List Bool Arith ZArith String Lia Permutation.
Import ListNotations.
From Verif Require Import DataflowModel DataflowSpec DataflowProofs DataflowList DataflowProps LoopProofs CityModel CitySpec.

Section P.
Context {V : Type}.
Notation obj := (@obj V).
Notation action := (@action V).

Definition event_of (a : action) : @happening obj :=
  match a with Write t r => HEff t (Args r) | Count i => HTick i | Select i b => HPass i b | Add i v => HAcc i (Obj v) end.
Definition error_of {A} (r : res A) : option exc := match r with Ret _ => None | Raise e => Some e end.
Definition same (t : obj * list (@happening obj) * option exc) (p : program unit) : Prop := let '(_, h, e) := t in h = map event_of (fst p) /\ e = error_of (snd p).

Lemma loop_program {E} n (item : E -> obj) (p : E -> program unit) evs :
  (forall e, same (treat n (item e)) (p e)) ->
  let '(h, _, ex) := loop n (map item evs) in h = map event_of (fst (for_each p evs)) /\ ex = snd (for_each p evs).
Proof.
  intros S. induction evs as [|e evs IH]; [cbn; auto|]. cbn [map loop for_each]. specialize (S e). unfold same in S. destruct (treat n (item e)) as [[x h] ex]. destruct S as (-> & ->).
  destruct (p e) as [a [u|ex]]; cbn [fst snd error_of]; [|auto]. destruct (loop n (map item evs)) as [[h k] ex]. destruct IH as (-> & ->). destruct (for_each p evs) as [b r]. cbn [fst snd]. rewrite map_app. auto.
Qed.

Lemma called_rows t l : called t (map event_of l) = map Args (rows t l).
Proof. induction l as [|[i r|i|i b|i v] l IH]; try exact IH; [reflexivity|]. unfold called, rows in *. cbn [map event_of flat_map]. destruct (i =? t); cbn [app map]; now rewrite IH. Qed.
Lemma ticks_counted i l : ticks i (map event_of l) = counted i l.
Proof. unfold ticks, counted. induction l as [|[t r|j|j b|j v] l IH]; try exact IH; [reflexivity|]. cbn [map event_of filter]. destruct (j =? i); cbn [List.length]; now rewrite ?IH. Qed.
Lemma passes_selected i b l : passes i b (map event_of l) = selected i b l.
Proof. unfold passes, selected. induction l as [|[t r|j|j c|j v] l IH]; try exact IH; [reflexivity|]. cbn [map event_of filter]. destruct ((j =? i) && Bool.eqb c b); cbn [List.length]; now rewrite ?IH. Qed.
Lemma accs_added i l : accs i (map event_of l) = map Obj (added i l).
Proof. unfold accs, added. induction l as [|[t r|j|j c|j v] l IH]; try exact IH; [reflexivity|]. cbn [map event_of flat_map]. destruct (j =? i); cbn [app map]; now rewrite ?IH. Qed.

Lemma results_futr id (tr : list (@ev obj)) : results id tr = map snd (filter (fun p => fst p =? id) (futr tr)).
Proof.
  induction tr as [|[i x|i r] tr IH]; [reflexivity|exact IH|]. cbn [futr flat_map app filter fst]. unfold results in *. cbn [flat_map].
  destruct (i =? id) eqn:E; cbn; rewrite ?E; cbn; [f_equal|]; exact IH.
Qed.
Lemma filter_one {B} (l : list (nat * B)) id r : NoDup (map fst l) -> In (id, r) l -> filter (fun p => fst p =? id) l = [(id, r)].
Proof.
  induction l as [|[i x] l IH]; [easy|]. cbn [map fst filter]. intros N H. inversion N as [|? ? N1 N2]; subst. destruct (Nat.eqb_spec i id) as [->|D].
  - destruct H as [H|H]; [injection H as ->; f_equal; clear -N1; induction l as [|[j y] l IH]; [reflexivity|]; cbn [filter fst]; destruct (Nat.eqb_spec j id) as [->|]; [exfalso; apply N1; now left|]; apply IH; intros C; apply N1; now right|].
    exfalso. apply N1. now apply (in_map fst) in H.
  - destruct H as [H|H]; [congruence|]. auto.
Qed.

(** the results of a network, and their ids *)
Lemma result_of n h (o : outcome obj) id k : NoDup (map fst (futures n)) -> Permutation (futr (o_trace o)) (map (value h) (futures n)) -> In (id, k) (futures n) ->
  results id (o_trace o) = [snd (value h (id, k))].
Proof.
  intros N P H. rewrite results_futr. erewrite filter_one; [reflexivity| |].
  - eapply Permutation_NoDup; [apply Permutation_map, Permutation_sym, P|]. rewrite map_map. erewrite map_ext; [exact N|]. now intros [? ?].
  - apply (Permutation_in _ (Permutation_sym P)). apply in_map_iff. exists (id, k). split; [|assumption]. unfold value. reflexivity.
Qed.

Lemma py_slice_z_map {A B} (f : A -> B) a b s l : py_slice_z a b s (map f l) = map f (py_slice_z a b s l).
Proof.
  unfold py_slice_z. rewrite map_length. generalize (seq 0 (List.length l)). intros ns. revert ns. induction l as [|x l IH]; intros [|n ns]; try reflexivity.
  cbn [map combine filter fst]. destruct (_ && _)%bool; cbn [map snd]; now rewrite IH.
Qed.

(** what a kind of result is *)
Definition result_as (o : outcome obj) (l : list action) (f : nat * @kind obj) : Prop := results (fst f) (o_trace o) = [snd (value (map event_of l) f)].

Theorem city_program {E} n (item : E -> obj) (p : E -> program unit) range evs :
  memoryless n -> NoDup (ids n) -> NoDup (map fst (futures n)) -> (forall e, same (treat n (item e)) (p e)) ->
  runs_as p range evs (city range n (map item evs)) (fun o l => forall f, In f (futures n) -> result_as o l f).
Proof.
  intros M N NF S. unfold runs_as, city. pose proof (C01_slice_is_python_slice obj (fst range) (snd range) None true n (map item evs)) as C.
  destruct (mk_slice_spec (fst range) (snd range) None true) as [sp|[]]; [|destruct C as (z & C1 & C2); eauto..|].
  - destruct C as (_ & _ & _ & C1 & C2). rewrite py_slice_z_map in C1, C2. generalize dependent (py_slice_z (fst range) (snd range) None evs). intros evs' C1 C2.
    pose proof (loop_program n item p evs' S) as L. pose proof (run_is_loop n (map item evs') M N) as R. destruct (loop n (map item evs')) as [[h k] ex].
    destruct (for_each p evs') as [l e]. cbn [fst snd] in L. destruct L as (-> & ->). destruct R as (_ & R1 & R2 & R3). unfold writes_as, raises_as. rewrite C2, C1, R1.
    split; [intros t; rewrite R2; apply called_rows|]. split; [reflexivity|].
    intros [id kd] Hf. unfold result_as. rewrite C1. eapply (result_of n); eauto.
  - destruct C as (z & C1 & C2). discriminate.
Qed.

Lemma result_count o l id : result_as o l (id, KCount) -> counts_as o l id.
Proof. unfold result_as, counts_as, value. cbn [fst snd]. now rewrite ticks_counted. Qed.
Lemma result_pass o l id : result_as o l (id, KPass) -> selects_as o l id.
Proof. unfold result_as, selects_as, value. cbn [fst snd]. now rewrite !passes_selected. Qed.
Lemma result_list o l id : result_as o l (id, KAcc (fun acc o => Ret (match acc, o with Args l, Obj v => Args (l ++ [v]) | _, _ => acc end)) (Args [])) -> lists_as o l id.
Proof.
  unfold result_as, lists_as, value. cbn [fst snd]. intros ->. do 2 f_equal. rewrite accs_added. generalize (added id l). intros vs.
  assert (G : forall a, fold_left (add (fun acc o => Ret (match acc, o with Args l, Obj v => Args (l ++ [v]) | _, _ => acc end))) (map Obj vs) (Args a) = Args (a ++ vs)).
  { induction vs as [|v vs IH]; intros a; cbn [map fold_left]; [now rewrite app_nil_r|]. unfold add at 2. rewrite IH, <- app_assoc. reflexivity. }
  exact (G []).
Qed.
Lemma result_sum plus zeros o l id : result_as o l (id, KAcc (fun acc o => Ret (match acc, o with Obj a, Obj v => Obj (plus a v) | _, _ => acc end)) (Obj zeros)) -> sums_as plus zeros o l id.
Proof.
  unfold result_as, sums_as, value. cbn [fst snd]. intros ->. do 2 f_equal. rewrite accs_added. generalize (added id l). intros vs. revert zeros.
  induction vs as [|v vs IH]; intros a; cbn [map fold_left]; [reflexivity|]. unfold add at 2. rewrite IH. reflexivity.
Qed.
Lemma runs_as_mono {E} (p : E -> program unit) range evs r (R1 R2 : outcome obj -> list action -> Prop) : (forall o l, R1 o l -> R2 o l) -> runs_as p range evs r R1 -> runs_as p range evs r R2.
Proof. intros H. unfold runs_as. destruct r; [|auto]. destruct (for_each p _). intros (A & B & C). auto. Qed.
End P.
