(** Model of the arithmetic used all over the code: types/ic_types.py (minmax), core/core_functions.py and core/core_functions_c.pyx *)
From Verif Require Import Base PeaksModel FiltersModel.
Local Open Scope Q_scope.

(** ---- types/ic_types.py 59-92: minmax; the constructor and the product are those of FiltersModel.v ---- *)
Definition mm_bracket (m : minmax) : Q := mx m - mn m.
(** with types/ic_types.py 59-92: minmax *)
Definition mm_center (m : minmax) : Q := (mx m + mn m) / 2.
(** with types/ic_types.py 59-92: minmax *)
Definition mm_contains (m : minmax) (x : Q) : bool := Qle_bool (mn m) x && Qle_bool x (mx m).
(** 81-83 *)
Definition mm_div (m : minmax) (f : Q) : result minmax := if Qeqb f 0 then Err AssertionError else minmax_mul m (1 / f).
(** with types/ic_types.py 59-92: minmax *)
Definition mm_add (m : minmax) (s : Q) : result minmax := mk_minmax (mn m + s) (mx m + s).
(** with types/ic_types.py 59-92: minmax *)
Definition mm_sub (m : minmax) (s : Q) : result minmax := mk_minmax (mn m - s) (mx m - s).
(** with types/ic_types.py 59-92: minmax *)
Definition mm_eq (m n : minmax) : bool := Qeqb (mn m) (mn n) && Qeqb (mx m) (mx n).
(** types/ic_types.py 101-104: minmax.__getitem__ *)
Definition mm_getitem (m : minmax) (n : Z) : result Q := if (n =? 0)%Z then Ok (mn m) else if (n =? 1)%Z then Ok (mx m) else Err IndexError.
(** types/ic_types.py 101-104: iteration over an object that has only __getitem__: the items from [n] up to the first IndexError; [fuel] bounds their number *)
Fixpoint mm_items (m : minmax) (fuel : nat) (n : Z) : list Q :=
  match fuel with O => [] | Datatypes.S k => match mm_getitem m n with Ok x => x :: mm_items m k (n + 1)%Z | Err _ => [] end end.

(** ---- core_functions.py 46-52: relative_difference; a zero divisor gives inf or nan, that is not modelled ---- *)
Inductive norm_mode := First | Second | Sumof | Mean.
(** for core_functions.py 46-52: relative_difference *)
Definition divide (a b : Q) : result Q := if Qeqb b 0 then Err NotModelled else Ok (a / b).
(** core_functions.py 46-52: relative_difference *)
Definition relative_difference (m : norm_mode) (x y : Q) : result Q :=
  match m with First => divide (x - y) x | Second => divide (x - y) y | Sumof => divide (x - y) (x + y) | Mean => divide (2 * (x - y)) (x + y) end.

(** ---- core_functions.py 55-80: in_range; a limit [None] is infinite ---- *)
Definition in_range4 (lo hi : option Q) (left_closed right_closed : bool) (x : Q) : bool :=
  match lo with None => true | Some a => if left_closed then Qle_bool a x else Qltb a x end &&
  match hi with None => true | Some b => if right_closed then Qle_bool x b else Qltb x b end.

(** ---- core_functions.py 83-129: weighted_mean_and_var of lists (axis None); numpy.average raises ZeroDivisionError when the weights add up to 0 and TypeError
    when the lengths are different. The division by 0 of the unbiased estimates gives inf or nan, that is not modelled ---- *)
Definition np_average (data weights : list Q) : result (Q * Q) :=
  if negb (length data =? length weights)%nat then Err TypeError else
  if Qeqb (sumQ weights) 0 then Err ZeroDivisionError else Ok (sumQ (map2 Qmult data weights) / sumQ weights, sumQ weights).
(** core_functions.py 83-129: weighted_mean_and_var *)
Definition weighted_mean_and_var (unbiased frequentist : bool) (data weights : list Q) : result (Q * Q) :=
  rbind (np_average data weights) (fun '(ave, wsum) =>
  rbind (np_average (map (fun x => (x - ave) * (x - ave)) data) weights) (fun '(var, _) =>
  if negb unbiased then Ok (ave, var) else
  if frequentist then rbind (divide wsum (wsum - 1)) (fun f => Ok (ave, var * f)) else
  let wsum2 := sumQ (map (fun w => w * w) weights) in
  rbind (divide wsum2 (wsum * wsum)) (fun r => rbind (divide 1 (1 - r)) (fun f => Ok (ave, var * f))))).

(** ---- core_functions.py 141-143: loc_elem_1d ---- *)
Fixpoint positions_from (i : nat) (elem : Q) (l : list Q) : list nat :=
  match l with [] => [] | x :: l => if Qeqb x elem then i :: positions_from (S i) elem l else positions_from (S i) elem l end.
(** core_functions.py 141-143: loc_elem_1d *)
Definition loc_elem_1d (l : list Q) (elem : Q) : result nat := match positions_from 0 elem l with [] => Err IndexError | i :: _ => Ok i end.

(** ---- core_functions_c.pyx 8-31: rebin_array, for a stride that is not negative. The average of an empty slice is not asked for: the slices have [stride] elements ---- *)
Definition np_mean (l : list Q) : Q := sumQ l / inject_Z (Z.of_nat (length l)).
(** with core_functions_c.pyx 8-31 *)
Definition rebin_array (arr : list Q) (stride : nat) (mean remainder : bool) : result (list Q) :=
  if (stride =? 0)%nat then Err ZeroDivisionError else
  let f := if mean then np_mean else sumQ in
  let lenb := (length arr / stride)%nat in
  Ok (map (fun i => f (slice (i * stride) (i * stride + stride) arr)) (seq 0 lenb) ++
      (if remainder && negb (length arr mod stride =? 0)%nat then [f (skipn (lenb * stride) arr)] else [])).

(** ---- core_functions.py 288-291: define_window; argmax of an empty array raises ValueError ---- *)
Definition define_window (wf : list Q) (size : nat) : result (nat * nat) :=
  match wf with
  | [] => Err ValueError
  | _ => let peak := argmax (map (fun x => Qabs (x - np_mean wf)) wf) in Ok ((peak - size)%nat, Nat.min (length wf) (peak + size))
  end.

(** ---- core_functions.py 353-360: fix_random_seed, with the state of the generator [S]; the body of the block may raise ---- *)
Definition with_fixed_seed {S A} (seeded : nat -> S) (seed : nat) (body : S -> S * result A) (state : S) : S * result A :=
  let (_, r) := body (seeded seed) in (state, r).

(** ---- reco/krmap_functions.py 9-35: lin_seed; the minimum of an empty array raises ValueError ---- *)
Definition minQ (l : list Q) : Q := match l with [] => 0 | a :: l => fold_left Qmin l a end.
(** for krmap_functions.py 9-35: lin_seed *)
Definition maxQ (l : list Q) : Q := match l with [] => 0 | a :: l => fold_left Qmax l a end.
(** krmap_functions.py 9-35: lin_seed *)
Definition lin_seed (x y : list Q) : result (Q * Q) :=
  match x, y with
  | [], _ | _, [] => Err ValueError
  | _, _ =>
    if Qeqb (maxQ x) (minQ x) then Ok (np_mean y, 0)
    else let b := (maxQ y - minQ y) / (maxQ x - minQ x) in Ok (minQ y - b * minQ x, b)
  end.
