(** What C119 says of averages and of rebinned arrays *)
From Verif Require Import Base.
Local Open Scope Q_scope.

(** the sum of the weights and the weighted sum of the squares of the distances to [c], for pairs of value and weight *)
Definition total (l : list (Q * Q)) : Q := sumF snd l.
Definition squares (c : Q) (l : list (Q * Q)) : Q := sumF (fun p => snd p * ((fst p - c) * (fst p - c))) l.
(** the array cut in blocks of [n] elements, the last of which may be shorter but has some *)
Inductive blocks {A} (n : nat) : list A -> list (list A) -> Prop :=
| b_none : blocks n [] []
| b_last : forall l, l <> [] -> (length l < n)%nat -> blocks n l [l]
| b_block : forall b l bs, length b = n -> blocks n l bs -> blocks n (b ++ l) (b :: bs).
