(** What C40 and C63 say *)
From Verif Require Import Base PeaksModel CorrModel CorrSpec KmapModel.
Local Open Scope Q_scope.

(** ---- C40 ---- *)
Definition before (p q : key) : Prop :=
  let '(k, i, j) := p in let '(k', i', j') := q in (k < k' \/ (k = k' /\ (i < i' \/ (i = i' /\ j < j'))))%nat.
(** the bins of a grid of nz x n x n, each once, in order *)
Definition covers_grid (nz n : nat) (l : list key) : Prop := StronglySorted before l /\ forall k i j, In (k, i, j) l <-> (k < nz /\ i < n /\ j < n)%nat.
(** the energies of the events in a bin *)
Definition is_in_bin (a b : Q) (n k : nat) (x : Q) : bool := Qle_bool (a + qn k * ((b - a) / qn n)) x && Qltb x (a + qn (S k) * ((b - a) / qn n)).
Section Bins.
  Variables (xy0 xy1 dt0 dt1 : Q) (n nz : nat) (s0 s1 : Q).
  Definition bin_energies (df : list krevent) (p : key) : list Q :=
    let '(k, i, j) := p in
    flat_map (fun e => match kX e, kY e, kDT e, kS2e e with
      | Some x, Some y, Some t, Some s => if is_in_bin dt0 dt1 nz k t && is_in_bin xy0 xy1 n i x && is_in_bin xy0 xy1 n j y && (Qle_bool s0 s && Qltb s s1) then [s] else []
      | _, _, _, _ => [] end) df.
  (** what is known of a bin before regularization: the fit of its events, or nothing *)
  Definition measured (fit : list Q -> fitted) (df : list krevent) (p : key) : fitted :=
    match bin_energies df p with [] => {| nevents := None; mu := None; sigma := None; mu_error := None; sigma_error := None |} | l => fit l end.
  Definition centre (p : key) : Q * Q * Q := let '(k, i, j) := p in (bin_centre dt0 dt1 nz k, bin_centre xy0 xy1 n i, bin_centre xy0 xy1 n j).
End Bins.
Definition same_point (p q : Q * Q * Q) : Prop := let '(a, b, c) := p in let '(d, e, f) := q in a == d /\ b == e /\ c == f.

(** the eight neighbours in the same slice *)
Definition eight (p : key) : list key :=
  let '(k, i, j) := p in [(k, i - 1, j - 1); (k, i - 1, j); (k, i - 1, j + 1); (k, i, j - 1); (k, i, j + 1); (k, i + 1, j - 1); (k, i + 1, j); (k, i + 1, j + 1)]%nat.
Definition missing (l : list val) : nat := length l - length (numbers l).
Definition interior (b c : nat) (p : key) : Prop := let '(_, i, j) := p in (0 < i /\ i + 1 < b /\ 0 < j /\ j + 1 < c)%nat.
(** values are kept; a missing value inside a slice is replaced by the mean of its neighbours if at most three of them are missing,
    with the values that the preceding neighbours have in the end and those that the following ones had in the beginning *)
Definition regularized (a b c : nat) (orig final : key -> val) : Prop :=
  forall k i j, (k < a -> i < b -> j < c ->
    (orig (k, i, j) <> None -> final (k, i, j) = orig (k, i, j)) /\
    (~ interior b c (k, i, j) -> final (k, i, j) = orig (k, i, j)) /\
    (orig (k, i, j) = None -> interior b c (k, i, j) ->
       exists vals, Forall2 (fun q v => (before q (k, i, j) /\ v = final q) \/ (before (k, i, j) q /\ v = orig q)) (eight (k, i, j)) vals /\
         (missing vals <= 3 -> exists m, final (k, i, j) = Some m /\ is_mean (numbers vals) m) /\ (3 < missing vals -> final (k, i, j) = None)))%nat.

(** ---- C63 ---- *)
(** the rows of each slice are those of a time interval of length [len] that starts a whole number of lengths after [t0] *)
Definition slice_number (t0 len : Q) (e : krevent) (k : nat) : Prop := t0 + qn k * len <= ktime e < t0 + qn (S k) * len.
Definition is_least (l : list Q) (m : Q) : Prop := In m l /\ forall x, In x l -> m <= x.
