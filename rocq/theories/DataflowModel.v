(** Model of /repo/invisible_cities/dataflow/dataflow.py (lines 1-362).

    Python coroutines are modelled as machines with an explicit state.  A
    generator that has returned, raised or been closed is the state [None];
    sending to it raises StopIteration, closing it does nothing.  Everything a
    user can observe of a pipeline is its trace: calls of user effects ([Eff])
    and future results ([Fut]).  An item is passed by reference in Python, so
    [send] also returns the (possibly mutated) item. *)
From Coq Require Import List Bool Arith.
Import ListNotations.

Inductive exc := StopPipeline | OtherExc (code : nat).   (* dataflow.py:289; any other exception *)
(** for dataflow.py 252-261 *)
Inductive res (A : Type) := Ret (a : A) | Raise (e : exc).
Arguments Ret {A} a. Arguments Raise {A} e.

Definition stop_iteration : exc := OtherExc 0.            (* send() to a finished generator *)

Section Flow.
Context {item : Type}.

(** for dataflow.py 289 *)
Inductive fres := RCount (n : nat) | RPassed (passed failed : nat) | RAcc (acc : item).
(** for dataflow.py 289 *)
Inductive ev := Eff (id : nat) (x : item) | Fut (id : nat) (r : fres).

(** with dataflow.py 289 *)
Definition ev_id (e : ev) : nat := match e with Eff i _ => i | Fut i _ => i end.

(** Result of one [send]: new state, item as left behind by the callee, trace, exception *)
Definition step (S : Type) : Type := (S * item * list ev * option exc)%type.

(** for dataflow.py 23-42 *)
Record machine := Machine {
  St    : Type;
  start : St;
  send  : St -> item -> step St;
  close : St -> St * list ev }.

(** Python generator primed by @coroutine (dataflow.py:23-42): [body] runs one
    loop iteration, [fin] is what the enclosing with/try...finally blocks do
    when the generator exits, by exception or by GeneratorExit. *)
Definition generator (R : Type) (r0 : R)
           (body : R -> item -> step R) (fin : R -> list ev) : machine :=
  {| St    := option R;
     start := Some r0;
     send  := fun s x =>
       match s with
       | None   => (None, x, [], Some stop_iteration)
       | Some r => let '(r', x', tr, e) := body r x in
                   match e with
                   | None    => (Some r', x', tr, None)
                   | Some ex => (None, x', tr ++ fin r', Some ex)
                   end
       end;
     close := fun s => match s with None => (None, []) | Some r => (None, fin r) end |}.

(** sink, dataflow.py:237-250 (effect called on each item, may raise);
    stop_when, dataflow.py:281-286, is a sink raising StopPipeline *)
Definition sink_m (id : nat) (effect : item -> option exc) : machine :=
  generator unit tt (fun _ x => (tt, x, [Eff id x], effect x)) (fun _ => []).

(** reduce, dataflow.py:252-261 *)
Definition reduce_m (id : nat) (update : item -> item -> res item) (initial : item) : machine :=
  generator item initial
    (fun acc x => match update acc x with
                  | Ret a   => (a  , x, [], None)
                  | Raise e => (acc, x, [], Some e) end)
    (fun acc => [Fut id (RAcc acc)]).

(** count, dataflow.py:263-271 *)
Definition count_m (id : nat) : machine :=
  generator nat 0 (fun n x => (S n, x, [], None)) (fun n => [Fut id (RCount n)]).

(** map without args/out, dataflow.py:59-63: a new object is sent downstream *)
Definition map_m (op : item -> res item) (m : machine) : machine :=
  generator (St m) (start m)
    (fun s x => match op x with
                | Raise e => (s, x, [], Some e)
                | Ret y   => let '(s', _, tr, e) := send m s y in (s', x, tr, e)
                end)
    (fun s => snd (close m s)).

(** map with args/out/item, dataflow.py:72-82: the item itself is updated *)
Definition upd_m (op : item -> res item) (m : machine) : machine :=
  generator (St m) (start m)
    (fun s x => match op x with
                | Raise e => (s, x, [], Some e)
                | Ret y   => send m s y
                end)
    (fun s => snd (close m s)).

(** flatmap without args/out, dataflow.py:94-99; [op] yields a list of results
    and may raise afterwards *)
Fixpoint send_all (m : machine) (s : St m) (ys : list item) : St m * list ev * option exc :=
  match ys with
  | []       => (s, [], None)
  | y :: ys' => let '(s', _, tr, e) := send m s y in
                match e with
                | Some ex => (s', tr, Some ex)
                | None    => let '(s'', tr', e') := send_all m s' ys' in (s'', tr ++ tr', e')
                end
  end.

(** for dataflow.py 281-286 *)
Definition flat_m (op : item -> list item * option exc) (m : machine) : machine :=
  generator (St m) (start m)
    (fun s x => let '(ys, oe) := op x in
                let '(s', tr, e) := send_all m s ys in
                (s', x, tr, match e with Some ex => Some ex | None => oe end))
    (fun s => snd (close m s)).

(** flatmap with args/out, dataflow.py:108-119: every result updates the same
    item, which is sent each time *)
Fixpoint send_upds (m : machine) (s : St m) (x : item) (us : list (item -> item)) : step (St m) :=
  match us with
  | []       => (s, x, [], None)
  | u :: us' => let '(s', x', tr, e) := send m s (u x) in
                match e with
                | Some ex => (s', x', tr, Some ex)
                | None    => let '(s'', x'', tr', e') := send_upds m s' x' us' in
                             (s'', x'', tr ++ tr', e')
                end
  end.

(** for dataflow.py 281-286 *)
Definition flatupd_m (op : item -> list (item -> item) * option exc) (m : machine) : machine :=
  generator (St m) (start m)
    (fun s x => let '(us, oe) := op x in
                let '(s', x', tr, e) := send_upds m s x us in
                (s', x', tr, match e with Some ex => Some ex | None => oe end))
    (fun s => snd (close m s)).

(** filter, dataflow.py:124-144 *)
Definition filter_m (p : item -> res bool) (m : machine) : machine :=
  generator (St m) (start m)
    (fun s x => match p x with
                | Raise e   => (s, x, [], Some e)
                | Ret true  => send m s x
                | Ret false => (s, x, [], None)
                end)
    (fun s => snd (close m s)).

(** count_filter, dataflow.py:149-187 *)
Definition cfilter_m (id : nat) (p : item -> res bool) (m : machine) : machine :=
  generator (nat * nat * St m) (0, 0, start m)
    (fun r x => let '(np, nf, s) := r in
                match p x with
                | Raise e   => ((np, nf, s), x, [], Some e)
                | Ret true  => let '(s', x', tr, e) := send m s x in ((S np, nf, s'), x', tr, e)
                | Ret false => ((np, S nf, s), x, [], None)
                end)
    (fun r => let '(np, nf, s) := r in snd (close m s) ++ [Fut id (RPassed np nf)]).

(** spy, dataflow.py:190-198 *)
Definition spy_m (id : nat) (op : item -> option exc) (m : machine) : machine :=
  generator (St m) (start m)
    (fun s x => match op x with
                | Some e => (s, x, [Eff id x], Some e)
                | None   => let '(s', x', tr, e) := send m s x in (s', x', Eff id x :: tr, e)
                end)
    (fun s => snd (close m s)).

(** branch, dataflow.py:200-209; the with statement closes downstream first *)
Definition branch_m (side m : machine) : machine :=
  generator (St side * St m) (start side, start m)
    (fun r x => let '(sd, s) := r in
                let '(sd', x', tr, e) := send side sd x in
                match e with
                | Some ex => ((sd', s), x', tr, Some ex)
                | None    => let '(s', x'', tr', e') := send m s x' in
                             ((sd', s'), x'', tr ++ tr', e')
                end)
    (fun r => let '(sd, s) := r in snd (close m s) ++ snd (close side sd)).

(** fork, dataflow.py:212-222 *)
Fixpoint fork_st (l : list machine) : Type :=
  match l with [] => unit | m :: ms => (St m * fork_st ms)%type end.
(** for dataflow.py 281-286 *)
Fixpoint fork_start (l : list machine) : fork_st l :=
  match l with [] => tt | m :: ms => (start m, fork_start ms) end.
(** for dataflow.py 281-286 *)
Fixpoint fork_send (l : list machine) : fork_st l -> item -> step (fork_st l) :=
  match l with
  | []      => fun s x => (s, x, [], None)
  | m :: ms => fun s x =>
      let '(s1, ss) := s in
      let '(s1', x', tr, e) := send m s1 x in
      match e with
      | Some ex => ((s1', ss), x', tr, Some ex)
      | None    => let '(ss', x'', tr', e') := fork_send ms ss x' in
                   ((s1', ss'), x'', tr ++ tr', e')
      end
  end.
(** for dataflow.py 281-286 *)
Fixpoint fork_close (l : list machine) : fork_st l -> list ev :=
  match l with
  | []      => fun _ => []
  | m :: ms => fun s => let '(s1, ss) := s in snd (close m s1) ++ fork_close ms ss
  end.
(** for dataflow.py 281-286 *)
Definition fork_m (l : list machine) : machine :=
  generator (fork_st l) (fork_start l) (fork_send l) (fork_close l).

(** slice, dataflow.py:326-354.  The state of the suspended coroutine: number
    of plain [yield]s still to consume, and number of blocks still to send
    ([None]: it.count()).  It is hand-compiled from the nested loops:
    - [skip > 0]                : suspended in one of the plain yields (345, 347, 350)
    - [skip = 0], blocks left   : suspended in target.send((yield)) (349)
    - [skip = 0], no block left : suspended in the final while True (352-353) *)
Record slice_spec := SliceSpec {
  sl_start : nat; sl_stop : option nat; sl_step1 : nat (* step - 1 *); sl_close : bool }.

(** for dataflow.py 327-335 *)
Inductive slice_arg_error := StartNegative | StopNegative | StepNotPositive.

(** for dataflow.py 281-286 *)
Definition slice_blocks (sp : slice_spec) : option nat :=
  match sl_stop sp with
  | None   => None
  | Some b => Some ((b - sl_start sp + sl_step1 sp) / S (sl_step1 sp))
  end.

(** for dataflow.py 281-286 *)
Definition slice_extra (sp : slice_spec) : nat :=
  match sl_stop sp with
  | Some b => if b <=? sl_start sp then 1 else 0
  | None   => 0
  end.

(** for dataflow.py 281-286 *)
Definition no_blocks (b : option nat) : bool :=
  match b with Some 0 => true | _ => false end.

(** for dataflow.py 281-286 *)
Definition dec_blocks (b : option nat) : option nat :=
  match b with Some n => Some (pred n) | None => None end.

(** for dataflow.py 281-286 *)
Definition slice_end (sp : slice_spec) (skip : nat) (b : option nat) : option exc :=
  if sl_close sp && (skip =? 0) && no_blocks b then Some StopPipeline else None.

(** for dataflow.py 281-286 *)
Definition slice_m (sp : slice_spec) (m : machine) : machine :=
  generator (nat * option nat * St m) (slice_extra sp + sl_start sp, slice_blocks sp, start m)
    (fun r x => let '(skip, b, s) := r in
      match skip with
      | S k => ((k, b, s), x, [], slice_end sp k b)
      | 0   => if no_blocks b then ((0, b, s), x, [], None)
               else let '(s', x', tr, e) := send m s x in
                    match e with
                    | Some ex => ((0, b, s'), x', tr, Some ex)
                    | None    => ((sl_step1 sp, dec_blocks b, s'), x', tr,
                                  slice_end sp (sl_step1 sp) (dec_blocks b))
                    end
      end)
    (fun r => let '(_, _, s) := r in snd (close m s)).

(** push, dataflow.py:291-302.  [feed] is the for loop (with the number of
    items taken from the source), [push] adds the final close; the result
    carries the trace, the number of items read and the exception, if any,
    that escapes. *)
Fixpoint feed (m : machine) (s : St m) (xs : list item) : St m * list ev * nat * option exc :=
  match xs with
  | []       => (s, [], 0, None)
  | x :: xs' => let '(s', _, tr, e) := send m s x in
                match e with
                | Some ex => (s', tr, 1, Some ex)
                | None    => let '(s'', tr', k, e') := feed m s' xs' in (s'', tr ++ tr', S k, e')
                end
  end.

(** for dataflow.py 291-302: push *)
Record outcome := Outcome { o_trace : list ev; o_read : nat; o_raised : option nat }.

(** dataflow.py 291-302: push *)
Definition push (m : machine) (xs : list item) : outcome :=
  let '(s, tr, k, e) := feed m (start m) xs in
  match e with
  | Some (OtherExc c) => Outcome tr k (Some c)
  | _                 => Outcome (tr ++ snd (close m s)) k None
  end.

(** Pipelines as users write them *)
Inductive node :=
| NSink    (id : nat) (effect : item -> option exc)
| NReduce  (id : nat) (update : item -> item -> res item) (initial : item)
| NCount   (id : nat)
| NMap     (op : item -> res item) (n : node)
| NUpd     (op : item -> res item) (n : node)
| NFlat    (op : item -> list item * option exc) (n : node)
| NFlatUpd (op : item -> list (item -> item) * option exc) (n : node)
| NFilter  (p : item -> res bool) (n : node)
| NCFilter (id : nat) (p : item -> res bool) (n : node)
| NSpy     (id : nat) (op : item -> option exc) (n : node)
| NBranch  (side n : node)
| NFork    (l : list node)
| NSlice   (sp : slice_spec) (n : node).

(** for dataflow.py 281-286 *)
Fixpoint den (n : node) : machine :=
  match n with
  | NSink id f      => sink_m id f
  | NReduce id u a  => reduce_m id u a
  | NCount id       => count_m id
  | NMap f n        => map_m f (den n)
  | NUpd f n        => upd_m f (den n)
  | NFlat f n       => flat_m f (den n)
  | NFlatUpd f n    => flatupd_m f (den n)
  | NFilter p n     => filter_m p (den n)
  | NCFilter id p n => cfilter_m id p (den n)
  | NSpy id f n     => spy_m id f (den n)
  | NBranch a n     => branch_m (den a) (den n)
  | NFork l         => fork_m (map den l)
  | NSlice sp n     => slice_m sp (den n)
  end.

(** pipe, dataflow.py:305-317: functools.reduce(apply, reversed(pieces)) *)
Definition pipe (pieces : list (node -> node)) (last : node) : node :=
  fold_left (fun n f => f n) (rev pieces) last.

(** spy_count, dataflow.py:276-278 *)
Definition spy_count (id : nat) : node -> node := NBranch (NCount id).
(** stop_when, dataflow.py:281-286 *)
Definition stop_when (id : nat) (p : item -> bool) : node :=
  NSink id (fun x => if p x then Some StopPipeline else None).

(** with dataflow.py 281-286 *)
Definition run (n : node) (xs : list item) : outcome := push (den n) xs.

End Flow.
Arguments ev : clear implicits.
Arguments fres : clear implicits.
Arguments node : clear implicits.
Arguments machine : clear implicits.
Arguments outcome : clear implicits.

(** Argument checks and defaults of slice, dataflow.py:327-335, on Python integers *)
From Coq Require Import ZArith.
(** with dataflow.py 327-335 *)
Definition mk_slice_spec (start stop step : option Z) (close_all : bool)
  : slice_spec + slice_arg_error :=
  let neg o := match o with Some z => (z <? 0)%Z | None => false end in
  if neg start then inr StartNegative else
  if neg stop then inr StopNegative else
  if match step with Some z => (z <=? 0)%Z | None => false end then inr StepNotPositive else
  inl {| sl_start := match start with Some z => Z.to_nat z | None => 0 end;
         sl_stop  := match stop with Some z => Some (Z.to_nat z) | None => None end;
         sl_step1 := match step with Some z => Nat.pred (Z.to_nat z) | None => 0 end;
         sl_close := close_all |}.
