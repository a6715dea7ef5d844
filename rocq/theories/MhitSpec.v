(** Specification of the hits of the events of a file before 2020 *)
From Verif Require Import Base McModel MhitModel.
From Coq Require Import Sorted.
Local Open Scope Z_scope.

(** the extents [ends] divide [rows] in [parts], one after the other: the k-th one ends with the row of index ends_k *)
Record divided {A} (rows : list A) (ends : list Z) (parts : list (list A)) : Prop := {
  dv_count : length parts = length ends;
  dv_rows : concat parts = rows;
  dv_end : forall k e, nth_error ends k = Some e -> Z.of_nat (length (concat (firstn (S k) parts))) = e + 1 }.

(** a file that can be read: the extents of hits and particles grow and end with the tables *)
Definition growing (n : nat) (ends : list Z) : Prop :=
  StronglySorted Z.le ends /\ Forall (fun e => -1 <= e) ends /\ match rev ends with [] => n = 0%nat | e :: _ => e + 1 = Z.of_nat n end.

(** [l'] is [l] in order of identifiers *)
Definition by_id {H} (l l' : list (hrow H)) : Prop := Permutation.Permutation l l' /\ StronglySorted (fun a b => hr_id a < hr_id b) l'.
