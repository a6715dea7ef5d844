(** Vocabulary used to state the dataflow properties; nothing here mentions
    coroutines. *)
From Coq Require Import List Bool Arith ZArith.
Import ListNotations.
Local Open Scope nat_scope.
From Verif Require Import DataflowModel.

Section Spec.
Context {item : Type}.
Notation ev := (ev item). Notation node := (node item).

(** Arguments of the successive calls of effect [id] in a trace *)
Definition calls (id : nat) (tr : list ev) : list item :=
  flat_map (fun e => match e with Eff i x => if i =? id then [x] else [] | Fut _ _ => [] end) tr.

(** Results given to future [id] in a trace *)
Definition results (id : nat) (tr : list ev) : list (fres item) :=
  flat_map (fun e => match e with Fut i r => if i =? id then [r] else [] | Eff _ _ => [] end) tr.

(** All futures resolved in a trace *)
Definition futs (tr : list ev) : list nat :=
  flat_map (fun e => match e with Fut i _ => [i] | Eff _ _ => [] end) tr.

(** Futures a pipeline exposes *)
Fixpoint fut_ids (n : node) : list nat :=
  match n with
  | NSink _ _      => []
  | NReduce id _ _ => [id]
  | NCount id      => [id]
  | NMap _ n | NUpd _ n | NFlat _ n | NFlatUpd _ n | NFilter _ n | NSpy _ _ n | NSlice _ n => fut_ids n
  | NCFilter id _ n => id :: fut_ids n
  | NBranch a n    => fut_ids a ++ fut_ids n
  | NFork l        => flat_map fut_ids l
  end.

(** All identifiers (effects and futures) of a pipeline *)
Fixpoint ids (n : node) : list nat :=
  match n with
  | NSink id _      => [id]
  | NReduce id _ _  => [id]
  | NCount id       => [id]
  | NMap _ n | NUpd _ n | NFlat _ n | NFlatUpd _ n | NFilter _ n | NSlice _ n => ids n
  | NSpy id _ n     => id :: ids n
  | NCFilter id _ n => id :: ids n
  | NBranch a n     => ids a ++ ids n
  | NFork l         => flat_map ids l
  end.

Definition mem (l : list nat) (i : nat) : bool := existsb (Nat.eqb i) l.
(** The part of a trace that concerns the identifiers of [n] *)
Definition events_of (n : node) (tr : list ev) : list ev :=
  filter (fun e => mem (ids n) (ev_id e)) tr.

(** Python's xs[start:stop:step], by positions *)
Definition in_slice (sp : slice_spec) (i : nat) : bool :=
  (sl_start sp <=? i)
  && match sl_stop sp with None => true | Some b => i <? b end
  && ((i - sl_start sp) mod (S (sl_step1 sp)) =? 0).

Definition py_slice (sp : slice_spec) (xs : list item) : list item :=
  map snd (filter (fun p => in_slice sp (fst p)) (combine (seq 0 (length xs)) xs)).

(** One pipeline is a direct part of another; the rest shares no identifier with it *)
Definition apart (a b : list nat) : Prop := forall i, In i a -> ~ In i b.

Inductive part : node -> node -> Prop :=
| P_map f n      : part n (NMap f n)
| P_upd f n      : part n (NUpd f n)
| P_flat f n     : part n (NFlat f n)
| P_flatupd f n  : part n (NFlatUpd f n)
| P_filter p n   : part n (NFilter p n)
| P_cfilter id p n : ~ In id (ids n) -> part n (NCFilter id p n)
| P_spy id f n   : ~ In id (ids n) -> part n (NSpy id f n)
| P_branch_l a n : apart (ids a) (ids n) -> part a (NBranch a n)
| P_branch_r a n : apart (ids a) (ids n) -> part n (NBranch a n)
| P_fork l1 n l2 : apart (flat_map ids (l1 ++ l2)) (ids n) -> part n (NFork (l1 ++ n :: l2))
| P_slice sp n   : part n (NSlice sp n)
| P_refl n       : part n n
| P_trans a b c  : part a b -> part b c -> part a c.

End Spec.

(** Python's xs[start:stop:step] on Python integers (None: omitted), by positions *)
Definition py_slice_z {A} (start stop step : option Z) (xs : list A) : list A :=
  let a := match start with Some a => a | None => 0%Z end in
  let s := match step with Some s => s | None => 1%Z end in
  let keep (i : Z) := ((a <=? i) && match stop with Some b => i <? b | None => true end
                       && ((i - a) mod s =? 0))%Z in
  map snd (filter (fun p => keep (Z.of_nat (fst p))) (combine (seq 0 (length xs)) xs)).

(** How many source items a stopping slice reads: everything up to the end of
    its last block; one item past [start] when it selects nothing. *)
Definition slice_reads (start stop step : nat) : nat :=
  if stop <=? start then S start else start + (stop - start + step - 1) / step * step.

(** List functions *)
Fixpoint take_while {A} (p : A -> bool) (l : list A) : list A :=
  match l with [] => [] | x :: l' => if p x then x :: take_while p l' else [] end.
Definition prefix {A} (a b : list A) : Prop := exists c, b = a ++ c.

(** The same pipeline with every request to stop (StopPipeline raised by a sink
    or a spy, close_all of a slice) removed *)
Section Unstop.
Context {item : Type}.
Definition unstop_effect (f : item -> option exc) (x : item) : option exc :=
  match f x with Some StopPipeline => None | r => r end.
Fixpoint unstop (n : node item) : node item :=
  match n with
  | NSink id f      => NSink id (unstop_effect f)
  | NReduce id u a  => NReduce id u a
  | NCount id       => NCount id
  | NMap f n        => NMap f (unstop n)
  | NUpd f n        => NUpd f (unstop n)
  | NFlat f n       => NFlat f (unstop n)
  | NFlatUpd f n    => NFlatUpd f (unstop n)
  | NFilter p n     => NFilter p (unstop n)
  | NCFilter id p n => NCFilter id p (unstop n)
  | NSpy id f n     => NSpy id (unstop_effect f) (unstop n)
  | NBranch a n     => NBranch (unstop a) (unstop n)
  | NFork l         => NFork (map unstop l)
  | NSlice sp n     => NSlice {| sl_start := sl_start sp; sl_stop := sl_stop sp;
                                 sl_step1 := sl_step1 sp; sl_close := false |} (unstop n)
  end.
End Unstop.

(** Pipelines whose components raise nothing, and the list functions they spell *)
Section Pure.
Context {item : Type}.
Inductive pnode :=
| PSink    (id : nat)
| PReduce  (id : nat) (update : item -> item -> item) (initial : item)
| PCount   (id : nat)
| PMap     (f : item -> item) (n : pnode)              (* new object sent on *)
| PUpd     (f : item -> item) (n : pnode)              (* item updated in place *)
| PFlat    (f : item -> list item) (n : pnode)
| PFilter  (p : item -> bool) (n : pnode)
| PCFilter (id : nat) (p : item -> bool) (n : pnode)
| PSpy     (id : nat) (n : pnode)
| PBranch  (side n : pnode)
| PFork    (l : list pnode)
| PSlice   (start : nat) (stop : option nat) (step1 : nat) (n : pnode).

Fixpoint embed (n : pnode) : node item :=
  match n with
  | PSink id        => NSink id (fun _ => None)
  | PReduce id u a  => NReduce id (fun a x => Ret (u a x)) a
  | PCount id       => NCount id
  | PMap f n        => NMap (fun x => Ret (f x)) (embed n)
  | PUpd f n        => NUpd (fun x => Ret (f x)) (embed n)
  | PFlat f n       => NFlat (fun x => (f x, None)) (embed n)
  | PFilter p n     => NFilter (fun x => Ret (p x)) (embed n)
  | PCFilter id p n => NCFilter id (fun x => Ret (p x)) (embed n)
  | PSpy id n       => NSpy id (fun _ => None) (embed n)
  | PBranch a n     => NBranch (embed a) (embed n)
  | PFork l         => NFork (map embed l)
  | PSlice a b s n  => NSlice {| sl_start := a; sl_stop := b; sl_step1 := s; sl_close := false |} (embed n)
  end.

(** Put the processed items back at the positions that were selected *)
Fixpoint put_back (sel : list bool) (ys xs : list item) : list item :=
  match sel, xs with
  | true  :: sel', x :: xs' => match ys with y :: ys' => y :: put_back sel' ys' xs'
                                           | []       => x :: put_back sel' [] xs' end
  | false :: sel', x :: xs' => x :: put_back sel' ys xs'
  | _, _ => xs
  end.

Definition slice_sel (a : nat) (b : option nat) (s : nat) (xs : list item) : list bool :=
  map (in_slice {| sl_start := a; sl_stop := b; sl_step1 := s; sl_close := false |}) (seq 0 (length xs)).
Definition select (sel : list bool) (xs : list item) : list item :=
  map snd (filter fst (combine sel xs)).

(** What the objects look like after the pipeline has treated them: only
    in-place updates are visible *)
Fixpoint after (n : pnode) (xs : list item) : list item :=
  match n with
  | PSink _ | PReduce _ _ _ | PCount _ => xs
  | PMap _ _ | PFlat _ _ => xs
  | PUpd f n        => after n (map f xs)
  | PFilter p n | PCFilter _ p n => put_back (map p xs) (after n (filter p xs)) xs
  | PSpy _ n        => after n xs
  | PBranch a n     => after n (after a xs)
  | PFork l         => fold_left (fun ys c => after c ys) l xs
  | PSlice a b s n  => put_back (slice_sel a b s xs) (after n (select (slice_sel a b s xs) xs)) xs
  end.

(** The items effect [id] is called on *)
Fixpoint seen (id : nat) (n : pnode) (xs : list item) : list item :=
  match n with
  | PSink i         => if i =? id then xs else []
  | PReduce _ _ _ | PCount _ => []
  | PMap f n        => seen id n (map f xs)
  | PUpd f n        => seen id n (map f xs)
  | PFlat f n       => seen id n (flat_map f xs)
  | PFilter p n | PCFilter _ p n => seen id n (filter p xs)
  | PSpy i n        => (if i =? id then xs else []) ++ seen id n xs
  | PBranch a n     => seen id a xs ++ seen id n (after a xs)
  | PFork l         => snd (fold_left (fun '(ys, acc) c => (after c ys, acc ++ seen id c ys)) l (xs, []))
  | PSlice a b s n  => seen id n (select (slice_sel a b s xs) xs)
  end.

(** The results given to future [id] *)
Fixpoint outcome_of (id : nat) (n : pnode) (xs : list item) : list (fres item) :=
  match n with
  | PSink _         => []
  | PReduce i u a   => if i =? id then [RAcc (fold_left u xs a)] else []
  | PCount i        => if i =? id then [RCount (length xs)] else []
  | PMap f n        => outcome_of id n (map f xs)
  | PUpd f n        => outcome_of id n (map f xs)
  | PFlat f n       => outcome_of id n (flat_map f xs)
  | PFilter p n     => outcome_of id n (filter p xs)
  | PCFilter i p n  => outcome_of id n (filter p xs) ++
                       (if i =? id then [RPassed (length (filter p xs))
                                                 (length (filter (fun x => negb (p x)) xs))] else [])
  | PSpy _ n        => outcome_of id n xs
  | PBranch a n     => outcome_of id n (after a xs) ++ outcome_of id a xs
  | PFork l         => snd (fold_left (fun '(ys, acc) c => (after c ys, acc ++ outcome_of id c ys)) l (xs, []))
  | PSlice a b s n  => outcome_of id n (select (slice_sel a b s xs) xs)
  end.
End Pure.
Arguments pnode : clear implicits.

(** Pipelines on dictionary items (names are numbers, values of type [V]) *)
Section Dict.
Context {V : Type}.
Definition dict := nat -> option V.
Definition vals (args : list nat) (d : dict) : list (option V) := map d args.
Definition update (outs : list nat) (vs : list V) (d : dict) : dict :=
  fold_left (fun d kv k => if k =? fst kv then Some (snd kv) else d k) (combine outs vs) d.

Inductive dnode :=
| DSink   (id : nat) (args : list nat)
| DMap    (args outs : list nat) (f : list (option V) -> list V) (n : dnode)
| DFilter (args : list nat) (p : list (option V) -> bool) (n : dnode)
| DBranch (side n : dnode)
| DFork   (l : list dnode).

Fixpoint compile (n : dnode) : node dict :=
  match n with
  | DSink id _        => NSink id (fun _ => None)
  | DMap args outs f n => NUpd (fun d => Ret (update outs (f (vals args d)) d)) (compile n)
  | DFilter args p n  => NFilter (fun d => Ret (p (vals args d))) (compile n)
  | DBranch a n       => NBranch (compile a) (compile n)
  | DFork l           => NFork (map compile l)
  end.

(** names read and written by a pipeline *)
Fixpoint reads (n : dnode) : list nat :=
  match n with
  | DSink _ args => args
  | DMap args _ _ n => args ++ reads n
  | DFilter args _ n => args ++ reads n
  | DBranch a n => reads a ++ reads n
  | DFork l => flat_map reads l
  end.
Fixpoint writes (n : dnode) : list nat :=
  match n with
  | DSink _ _ => []
  | DMap _ outs _ n => outs ++ writes n
  | DFilter _ _ n => writes n
  | DBranch a n => writes a ++ writes n
  | DFork l => flat_map writes l
  end.
Inductive sink_of : dnode -> nat -> list nat -> Prop :=
| S_sink id args : sink_of (DSink id args) id args
| S_map a o f n id args : sink_of n id args -> sink_of (DMap a o f n) id args
| S_filter a p n id args : sink_of n id args -> sink_of (DFilter a p n) id args
| S_branch_l a n id args : sink_of a id args -> sink_of (DBranch a n) id args
| S_branch_r a n id args : sink_of n id args -> sink_of (DBranch a n) id args
| S_fork l c id args : In c l -> sink_of c id args -> sink_of (DFork l) id args.
End Dict.
Arguments dict : clear implicits.
Arguments dnode : clear implicits.

(** A chain of in-place maps: map(f1, ...), map(f2, ...), ... *)
Definition chain {item} (fs : list (item -> item)) (n : node item) : node item :=
  fold_right (fun f n => NUpd (fun x => Ret (f x)) n) n fs.
