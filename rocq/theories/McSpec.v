(** Vocabulary for C33 and C34 *)
From Verif Require Import Base McModel.
Local Open Scope nat_scope.

Section Merge.
  Context {R : Type}.
  Notation dict := (list (mckind * mctable R)).
  (** the rows of a table with the file index they came with; 0 when there was none *)
  Definition rows_of (t : mctable R) : list (R * Z) := match t with Indexed l => l | NotIndexed l => map (fun r => (r, 0%Z)) l end.
  Definition is_kind (a b : mckind) : bool := match a, b with Configuration, Configuration | EventMapping, EventMapping | OtherTable, OtherTable => true | _, _ => false end.
  Definition tables_of (k : mckind) (d : dict) : list (mctable R) := map snd (filter (fun p => is_kind (fst p) k) d).

  (** [a] lists the indices in a table, each once, in the order in which they first appear *)
  Inductive appear : list Z -> list Z -> Prop :=
  | ap_nil : appear [] []
  | ap_new a l x : appear a l -> ~ In x l -> appear (a ++ [x]) (l ++ [x])
  | ap_old a l x : appear a l -> In x l -> appear a (l ++ [x]).

  (** a file whose two tables refer to the same [k] files [a], the last row of the mapping to the last one;
      the numbers [first], [first+1], ... given to them do not meet an index that has not been replaced yet *)
  Record good_file (first : Z) (d : dict) (c m : mctable R) (a : list Z) : Prop := {
    g_config : tables_of Configuration d = [c];
    g_map : tables_of EventMapping d = [m];
    g_config_indices : appear a (map snd (rows_of c));
    g_map_indices : appear a (map snd (rows_of m));
    g_last : exists rows r x a', rows_of m = rows ++ [(r, x)] /\ a = a' ++ [x];
    g_no_clash : forall i j x, i < j -> nth_error a j = Some x -> (first + Z.of_nat i <> x)%Z }.
  Fixpoint good_files (first : Z) (files : list dict) (l : list (mctable R * mctable R * list Z)) : Prop :=
    match files, l with
    | [], [] => True
    | d :: files, (c, m, a) :: l => good_file first d c m a /\ good_files (first + Z.of_nat (length a)) files l
    | _, _ => False
    end.
End Merge.

Section Old.
  (** the extents are in order; only events without rows at the beginning may end at the same place *)
  Definition in_order (ext : list extent) : Prop :=
    StronglySorted (fun x y => (x_last x < x_last y)%Z \/ (x_last x = x_last y /\ x_last y < 0)%Z) ext.
  (** the row [i] belongs to the event of the first extent that reaches it *)
  Definition owner (ext : list extent) (i : nat) (ev : Z) : Prop :=
    exists k x, nth_error ext k = Some x /\ x_event x = ev /\ (Z.of_nat i <= x_last x)%Z /\
      forall k' x', k' < k -> nth_error ext k' = Some x' -> (x_last x' < Z.of_nat i)%Z.
End Old.
