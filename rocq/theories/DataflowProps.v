(** Properties C01-C06 of the dataflow library *)
From Coq Require Import List Bool Arith ZArith Permutation Lia.
Import ListNotations.
From Verif Require Import DataflowModel DataflowSpec DataflowProofs DataflowList DataflowStop DataflowMore.
Local Open Scope nat_scope.

(** Example vocabulary: items are numbers *)
Definition nothing : nat -> option exc := fun _ => None.
Definition is7 (x : nat) : bool := x =? 7.
Definition fails_at_7 : nat -> option exc := fun x => if x =? 7 then Some (OtherExc 3) else None.

(** ---------------- C01 ---------------- *)
(** A slice in front of any pipeline is indistinguishable (effects, futures,
    exceptions) from the pipeline run on Python's source[start:stop:step];
    invalid arguments are refused. *)
Theorem C01_slice_is_python_slice :
  forall (item : Type) (start stop step : option Z) (close_all : bool) (n : node item) (xs : list item),
  match mk_slice_spec start stop step close_all with
  | inr StartNegative   => exists z, start = Some z /\ (z < 0)%Z
  | inr StopNegative    => exists z, stop = Some z /\ (z < 0)%Z
  | inr StepNotPositive => exists z, step = Some z /\ (z <= 0)%Z
  | inl sp =>
      (forall z, start = Some z -> 0 <= z)%Z /\ (forall z, stop = Some z -> 0 <= z)%Z /\
      (forall z, step = Some z -> 0 < z)%Z /\
      o_trace (run (NSlice sp n) xs) = o_trace (run n (py_slice_z start stop step xs)) /\
      o_raised (run (NSlice sp n) xs) = o_raised (run n (py_slice_z start stop step xs))
  end.
Proof.
  intros. destruct (mk_slice_spec start stop step close_all) as [sp|e] eqn:E.
  - destruct (py_slice_z_ok _ _ _ _ _ xs E) as (H & _). rewrite <- H.
    unfold mk_slice_spec in E.
    destruct (match start with Some z => (z <? 0)%Z | None => false end) eqn:E1; [discriminate|].
    destruct (match stop with Some z => (z <? 0)%Z | None => false end) eqn:E2; [discriminate|].
    destruct (match step with Some z => (z <=? 0)%Z | None => false end) eqn:E3; [discriminate|].
    repeat split; try (intros z ->; lia); apply slice_run.
  - unfold mk_slice_spec in E.
    destruct (match start with Some z => (z <? 0)%Z | None => false end) eqn:E1.
    { inversion E; subst. destruct start; [|discriminate]. eexists; split; [reflexivity|]. lia. }
    destruct (match stop with Some z => (z <? 0)%Z | None => false end) eqn:E2.
    { inversion E; subst. destruct stop; [|discriminate]. eexists; split; [reflexivity|]. lia. }
    destruct (match step with Some z => (z <=? 0)%Z | None => false end) eqn:E3.
    { inversion E; subst. destruct step; [|discriminate]. eexists; split; [reflexivity|]. lia. }
    discriminate.
Qed.
Print Assumptions C01_slice_is_python_slice.

Example C01_example :
  exists sp, mk_slice_spec (Some 1%Z) (Some 7%Z) (Some 2%Z) true = inl sp /\
  calls 0 (o_trace (run (NSlice sp (NSink 0 nothing)) (seq 10 10))) = [11; 13; 15].
Proof. eexists. split; vm_compute; reflexivity. Qed.

(** How much of the source is read: a stopping slice reads up to the end of its
    last block and no further; a plain one reads everything. *)
Theorem C01_slice_reads :
  forall (item : Type) (start stop step : option Z) (close_all : bool) (n : node item) (xs : list item) sp,
  mk_slice_spec start stop step close_all = inl sp ->
  (forall ys, o_read (run n ys) = length ys) ->
  o_read (run (NSlice sp n) xs) =
  match close_all, stop with
  | true, Some b => Nat.min (length xs)
                      (slice_reads (Z.to_nat (match start with Some a => a | None => 0%Z end)) (Z.to_nat b)
                                   (Z.to_nat (match step with Some s => s | None => 1%Z end)))
  | _, _ => length xs
  end.
Proof.
  intros item start stop step c n xs sp E Hn.
  destruct (py_slice_z_ok _ _ _ _ _ xs E) as (_ & <- & <- & H3 & <-).
  rewrite (slice_run_read sp n xs Hn). rewrite H3. destruct (sl_close sp), stop; reflexivity.
Qed.
Print Assumptions C01_slice_reads.

Lemma slice_reads_bound a b s : 0 < s ->
  slice_reads a b s <= Nat.max (S a) (b + (s - 1)) /\ Nat.min b (slice_reads a b s) = b.
Proof.
  intros Hs. unfold slice_reads. destruct (Nat.leb_spec b a); [lia|].
  pose proof (Nat.div_mod (b - a + s - 1) s ltac:(lia)).
  pose proof (Nat.mod_upper_bound (b - a + s - 1) s ltac:(lia)). nia.
Qed.

(** ... which is never more than step-1 items beyond [stop]. *)
Theorem C01_slice_reads_bound :
  forall start stop step, 0 < step ->
  slice_reads start stop step <= Nat.max (S start) (stop + (step - 1)) /\
  stop <= slice_reads start stop step.
Proof. intros a b s Hs. pose proof (slice_reads_bound a b s Hs). lia. Qed.
Print Assumptions C01_slice_reads_bound.

Example C01_reads_example :
  exists sp, mk_slice_spec (Some 1%Z) (Some 6%Z) (Some 3%Z) true = inl sp /\
  o_read (run (NSlice sp (NSink 0 nothing)) (seq 10 20)) = 7 /\ slice_reads 1 6 3 = 7.
Proof. eexists. split; [|split]; vm_compute; reflexivity. Qed.

(** ---------------- C02 ---------------- *)
Theorem C02_pipeline_is_list_function :
  forall (item : Type) (n : pnode item) (xs : list item),
  NoDup (ids (embed n)) ->
  o_raised (run (embed n) xs) = None /\ o_read (run (embed n) xs) = length xs /\
  (forall id, calls id (o_trace (run (embed n) xs)) = seen id n xs) /\
  (forall id, results id (o_trace (run (embed n) xs)) = outcome_of id n xs).
Proof. intros. now apply pure_run. Qed.
Print Assumptions C02_pipeline_is_list_function.

Definition C02_pipe : pnode nat :=
  PSpy 0 (PFilter Nat.even (PBranch (PMap (Nat.add 1) (PSink 1))
    (PFork [PFlat (fun x => [x; x * x]) (PReduce 2 Nat.add 100);
            PCFilter 3 (fun x => x <? 4) (PSlice 1 None 0 (PSink 4)); PCount 5]))).
Example C02_example :
  NoDup (ids (embed C02_pipe)) /\
  seen 1 C02_pipe (seq 0 8) = [1; 3; 5; 7] /\ seen 4 C02_pipe (seq 0 8) = [2] /\
  outcome_of 2 C02_pipe (seq 0 8) = [RAcc 168] /\ outcome_of 3 C02_pipe (seq 0 8) = [RPassed 2 2].
Proof.
  split; [|repeat split].
  cbn. repeat constructor; cbn; intuition congruence.
Qed.

(** the pieces of a pipe are applied to the items from the first to the last *)
Inductive stage (item : Type) := StMap (f : item -> item) | StFilter (p : item -> bool) | StFlat (f : item -> list item).
Arguments StMap {item}. Arguments StFilter {item}. Arguments StFlat {item}.
Definition piece {item} (s : stage item) : node item -> node item :=
  match s with
  | StMap f => NMap (fun x => Ret (f x))
  | StFilter p => NFilter (fun x => Ret (p x))
  | StFlat f => NFlat (fun x => (f x, None))
  end.
Definition on_list {item} (l : list item) (s : stage item) : list item :=
  match s with StMap f => map f l | StFilter p => filter p l | StFlat f => flat_map f l end.

Theorem C02_pipe_left_to_right :
  forall (item : Type) (stages : list (stage item)) (id : nat) (xs : list item),
  calls id (o_trace (run (pipe (map piece stages) (NSink id (fun _ => None))) xs)) = fold_left on_list stages xs.
Proof.
  intros item stages id xs.
  set (pn := fold_right (fun s n => match s with StMap f => PMap f n | StFilter p => PFilter p n | StFlat f => PFlat f n end) (PSink id) stages).
  assert (E : pipe (map piece stages) (NSink id (fun _ => None)) = embed pn).
  { unfold pipe, pn. rewrite <- fold_left_rev_right, rev_involutive. induction stages as [|s l IH]; [reflexivity|]. cbn [map fold_right]. rewrite IH. now destruct s. }
  assert (I : ids (embed pn) = [id]).
  { clear E. unfold pn. induction stages as [|s l IH]; [reflexivity|]. cbn [fold_right]. now destruct s. }
  rewrite E. destruct (pure_run pn xs) as (_ & _ & H & _); [rewrite I; repeat constructor; easy|]. rewrite H.
  clear E I H. unfold pn. clear pn. revert xs. induction stages as [|s l IH]; intros xs; [cbn; now rewrite Nat.eqb_refl|]. cbn [fold_right fold_left]. rewrite <- IH. now destruct s.
Qed.
Print Assumptions C02_pipe_left_to_right.
Example C02_pipe_example :
  calls 0 (o_trace (run (pipe (map piece [StMap (Nat.add 1); StFilter Nat.even; StFlat (fun x => [x; x * x])]) (NSink 0 (fun _ => None))) [1; 2; 3])) = [2; 4; 4; 16].
Proof. reflexivity. Qed.

(** ---------------- C03 ---------------- *)
Theorem C03_futures_resolved_once :
  forall (item : Type) (n : node item) (xs : list item),
  Permutation (futs (o_trace (run n xs))) (fut_ids n).
Proof. intros. apply run_futs. Qed.
Print Assumptions C03_futures_resolved_once.

Definition C03_pipe : node nat :=
  spy_count 1 (NCFilter 2 (fun x => Ret (x <? 9)) (NFork [NSink 0 fails_at_7; NReduce 3 (fun a x => Ret (a + x)) 0; NCount 4])).
Example C03_example :
  o_raised (run C03_pipe (seq 5 9)) = Some 3 /\ futs (o_trace (run C03_pipe (seq 5 9))) = [3; 4; 2; 1] /\
  results 3 (o_trace (run C03_pipe (seq 5 9))) = [RAcc 11].
Proof. vm_compute. auto. Qed.

(** every part of a pipeline, whatever surrounds it, sees a complete push of its own *)
Theorem C03_part_lives_a_complete_push :
  forall (item : Type) (c n : node item), part c n -> forall xs, exists ys,
  events_of c (o_trace (run n xs)) = o_trace (run c ys).
Proof. intros. now apply part_run. Qed.
Print Assumptions C03_part_lives_a_complete_push.

Example C03_part_example : part (NCount 4) C03_pipe.
Proof.
  unfold C03_pipe, spy_count.
  eapply P_trans; [|apply P_branch_r; intros i; cbn; intuition congruence].
  eapply P_trans; [|apply P_cfilter; cbn; intuition congruence].
  apply (P_fork [NSink 0 fails_at_7; NReduce 3 (fun a x => Ret (a + x)) 0] (NCount 4) []).
  intros i; cbn; intuition congruence.
Qed.

(** ---------------- C04 ---------------- *)
(** [a] and [b] record what reaches the filter and what leaves it *)
Theorem C04_count_filter :
  forall (item : Type) (a b id : nat) (p : item -> bool) (n N : node item) (xs : list item),
  NoDup (a :: b :: id :: ids n) ->
  part (NBranch (NSink a (fun _ => None)) (NCFilter id (fun x => Ret (p x)) (NBranch (NSink b (fun _ => None)) n))) N ->
  exists passed failed,
    results id (o_trace (run N xs)) = [RPassed passed failed] /\
    length (calls a (o_trace (run N xs))) = passed + failed /\
    length (calls b (o_trace (run N xs))) = passed.
Proof. intros. eapply count_filter_anywhere; eassumption. Qed.
Print Assumptions C04_count_filter.

Theorem C04_spy_count :
  forall (item : Type) (a id : nat) (n N : node item) (xs : list item),
  NoDup (a :: id :: ids n) ->
  part (NBranch (NSink a (fun _ => None)) (spy_count id n)) N ->
  results id (o_trace (run N xs)) = [RCount (length (calls a (o_trace (run N xs))))].
Proof. intros. eapply spy_count_anywhere; eassumption. Qed.
Print Assumptions C04_spy_count.

(** The standard city: events_in, in-place maps, a count_filter, events_out, and
    any downstream pipeline, which may raise or stop the push. *)
Theorem C04_city_balance :
  forall (item : Type) (i id o : nat) (fs : list (item -> item)) (p : item -> bool) (n : node item) (xs : list item),
  NoDup (i :: id :: o :: ids n) ->
  exists passed failed,
    let tr := o_trace (run (spy_count i (chain fs (NCFilter id (fun x => Ret (p x)) (spy_count o n)))) xs) in
    results i tr = [RCount (passed + failed)] /\ results id tr = [RPassed passed failed] /\
    results o tr = [RCount passed].
Proof. intros. now apply city_counts. Qed.
Print Assumptions C04_city_balance.

Example C04_example :
  let tr := o_trace (run (spy_count 1 (chain [S; S] (NCFilter 2 (fun x => Ret (Nat.even x)) (spy_count 3 (NSink 4 nothing))))) (seq 0 7)) in
  results 1 tr = [RCount 7] /\ results 2 tr = [RPassed 4 3] /\ results 3 tr = [RCount 4] /\ calls 4 tr = [2; 4; 6; 8].
Proof. vm_compute. auto. Qed.

(** ---------------- C05 ---------------- *)
Theorem C05_stop_gives_prefix :
  forall (item : Type) (n : node item) (xs : list item) (id : nat),
  prefix (calls id (o_trace (run n xs))) (calls id (o_trace (run (unstop n) xs))).
Proof. intros. apply stop_prefix. Qed.
Print Assumptions C05_stop_gives_prefix.

(** a sink on a side arm, or first in a fork, sees every item read from the
    source, including the one that stopped the push (or raised) *)
Theorem C05_sink_before_sees_all :
  forall (item : Type) (a : nat) (n : node item) (l : list (node item)) (xs : list item),
  ~ In a (ids n) -> ~ In a (flat_map ids l) ->
  (let o := run (NBranch (NSink a (fun _ => None)) n) xs in
   calls a (o_trace o) = firstn (o_read o) xs /\ o_read o = o_read (run n xs)) /\
  (let o := run (NFork (NSink a (fun _ => None) :: l)) xs in
   calls a (o_trace o) = firstn (o_read o) xs /\ o_read o = o_read (run (NFork l) xs)).
Proof. intros item a n l xs H1 H2. split; [now apply before_run | now apply before_fork_run]. Qed.
Print Assumptions C05_sink_before_sees_all.

(** what is downstream of a stop_when side arm sees the items before the first hit *)
Theorem C05_stop_when :
  forall (item : Type) (i : nat) (p : item -> bool) (n : node item) (xs : list item),
  ~ In i (ids n) ->
  events_of n (o_trace (run (NBranch (stop_when i p) n) xs)) =
  o_trace (run n (take_while (fun x => negb (p x)) xs)).
Proof. intros. now apply after_stop_when_run. Qed.
Print Assumptions C05_stop_when.

Example C05_example :
  let o := run (NFork [NSink 0 nothing; stop_when 1 is7; NSink 2 nothing]) (seq 4 9) in
  calls 0 (o_trace o) = [4; 5; 6; 7] /\ calls 2 (o_trace o) = [4; 5; 6] /\ o_read o = 4 /\
  calls 2 (o_trace (run (unstop (NFork [NSink 0 nothing; stop_when 1 is7; NSink 2 nothing])) (seq 4 9))) = seq 4 9.
Proof. vm_compute. auto. Qed.

(** ---------------- C06 ---------------- *)
(** A branch of a fork sees exactly what it would see alone, provided no earlier
    branch writes a name it reads. *)
Theorem C06_fork_branches_isolated :
  forall (V : Type) (l1 : list (dnode V)) (c : dnode V) (l2 : list (dnode V)) (xs : list (dict V)) id args,
  (forall k, In k (reads c) -> ~ In k (flat_map writes l1)) ->
  apart (flat_map (fun c => ids (compile c)) (l1 ++ l2)) (ids (compile c)) ->
  sink_of c id args ->
  map (vals args) (calls id (o_trace (run (compile (DFork (l1 ++ c :: l2))) xs))) =
  map (vals args) (calls id (o_trace (run (compile c) xs))).
Proof. intros. now apply fork_isolated. Qed.
Print Assumptions C06_fork_branches_isolated.

Definition C06_ev (e : nat) : dict nat := fun k => if k =? 0 then Some e else None.
Definition C06_w : dnode nat := DMap [0] [1] (fun _ => [42]) (DSink 5 [1]).
Definition C06_r : dnode nat := DFilter [0] (fun _ => true) (DSink 6 [0]).
Example C06_example :
  (forall k, In k (reads C06_r) -> ~ In k (flat_map writes [C06_w])) /\
  apart (flat_map (fun c => ids (compile c)) ([C06_w] ++ [])) (ids (compile C06_r)) /\
  sink_of C06_r 6 [0] /\
  map (vals [0]) (calls 6 (o_trace (run (compile C06_r) [C06_ev 3]))) = [[Some 3]].
Proof.
  split; [intros k; cbn; intuition congruence|].
  split; [intros k; cbn; intuition congruence|].
  split; [repeat constructor | reflexivity].
Qed.

(** Without that proviso isolation fails: a branch that overwrites a name is
    seen by the branches after it. *)
Theorem C06_isolation_needs_condition_refuted :
  exists (l1 : list (dnode nat)) (c : dnode nat) (xs : list (dict nat)) id args,
  apart (flat_map (fun c => ids (compile c)) l1) (ids (compile c)) /\ sink_of c id args /\
  map (vals args) (calls id (o_trace (run (compile (DFork (l1 ++ [c]))) xs))) <>
  map (vals args) (calls id (o_trace (run (compile c) xs))).
Proof.
  exists [DMap [0] [0] (fun _ => [42]) (DSink 5 [0])], (DSink 6 [0]), [C06_ev 3], 6, [0].
  split; [intros k; cbn; intuition congruence|]. split; [constructor|].
  vm_compute. discriminate.
Qed.
Print Assumptions C06_isolation_needs_condition_refuted.
