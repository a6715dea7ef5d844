(** Specification for C130: what a hit read from a row of a table has to be *)
From Verif Require Import Base PeaksModel PmapioModel TablesModel HitcModel.
Local Open Scope Q_scope.

(** the value of a column that may be missing *)
Definition column {A} (present : bool) (in_row if_missing x : A) : Prop := (present = true -> x = in_row) /\ (present = false -> x = if_missing).
(** a hit with the position, peak and charge of a row; the charge is the energy if the table has no charges *)
Definition reads (cols : columns) (r : hrow) (h : hit) : Prop :=
  let c := h_cluster h in
  cl_x c = r_X r /\ cl_y c = r_Y r /\ cl_z c = r_Z r /\ h_npeak h = r_npeak r /\ column (has_Q cols) (r_Q r) (r_E r) (cl_Q c) /\
  (~ r_E r == NN -> cl_E c = r_E r) /\
  column (has_Xpeak cols) (r_Xpeak r) (-(1000)) (h_Xpeak h) /\ column (has_Ypeak cols) (r_Ypeak r) (-(1000)) (h_Ypeak h) /\
  column (has_Ec cols) (r_Ec r) (-(1)) (h_Ec h) /\ column (has_track cols) (r_track r) (-1)%Z (h_track h) /\ column (has_Ep cols) (r_Ep r) (-(1)) (h_Ep h).
(** a row with no charge *)
Definition no_charge (cols : columns) (r : hrow) : Prop := (has_Q cols = true -> r_Q r == NN) /\ (has_Q cols = false -> r_E r == NN).
(** all that a table of hits keeps of a hit *)
Definition same_hit (h k : hit) : Prop :=
  let c := h_cluster h in let d := h_cluster k in
  cl_x d = cl_x c /\ cl_y d = cl_y c /\ cl_z d = cl_z c /\ cl_E d = cl_E c /\ cl_Q d = cl_Q c /\ h_Xpeak k = h_Xpeak h /\ h_Ypeak k = h_Ypeak h /\ h_Ec k = h_Ec h /\ h_npeak k = Nat.min (h_npeak h) (N.to_nat 65535).
(** no two collections have the same event number *)
Definition one_each (l : list collection) : Prop := NoDup (map c_event l).
