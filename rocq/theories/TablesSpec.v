(** Vocabulary for C32, C35, C53 and C61 *)
From Verif Require Import Base TablesModel.
Local Open Scope nat_scope.

Section Frames.
  Context {V T : Type}.
  (** [v] is the value of the column [c] in a row *)
  Definition cell (cols : list (nat * T)) (row : list V) (c : nat) (v : V) : Prop :=
    exists i, nth_error (map fst cols) i = Some c /\ nth_error row i = Some v.
  (** no two columns have the same name and every row has one value per column *)
  Definition frame_ok (f : frame V T) : Prop := NoDup (names f) /\ forall row, In row (f_rows f) -> length row = length (f_cols f).

  Variables (is_object : T -> bool) (can_cast : T -> T -> bool) (astype : T -> V -> result V).
  Definition same_columns (f : frame V T) (cols : list (nat * T)) : Prop := forall c, In c (names f) <-> In c (map fst cols).
  Definition castable (f : frame V T) (cols : list (nat * T)) : Prop :=
    forall c t t', In (c, t) (f_cols f) -> In (c, t') cols -> is_object t = true \/ can_cast t t' = true.
  (** the row [s] of a table is the row [row] of the frame: under each name the value of the frame, converted to the type of the column *)
  Definition stored_row (f : frame V T) (cols : list (nat * T)) (row s : list V) : Prop :=
    length s = length cols /\
    forall c t w, In (c, t) cols -> (cell cols s c w <-> exists v, cell (f_cols f) row c v /\ astype t v = Ok w).
End Frames.
