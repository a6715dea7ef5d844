(** Model of the collections of hits and of their tables: evm/event_model.py (Cluster, Hit, HitCollection), evm/nh5.py (HitsTable) and io/hits_io.py. Numbers are exact; those that are not finite, and events or times that are nan (left out by groupby), are not modelled. *)
From Verif Require Import Base PeaksModel PmapioModel TablesModel.
Local Open Scope Q_scope.

(** types/ic_types.py 8: NN *)
Definition NN : Q := -(999999).

(** evm/event_model.py 112-127: a cluster; the variances of its position, always 0 here, are left out *)
Record cluster := { cl_x : Q; cl_y : Q; cl_z : Q; cl_E : Q; cl_Q : Q; cl_Qc : Q; cl_nsipm : nat }.
(** evm/event_model.py 114-126: Cluster.__init__ *)
Definition mk_cluster (charge x y : Q) (nsipm : nat) (z E Qc : Q) : cluster :=
  {| cl_x := x; cl_y := y; cl_z := z; cl_E := if Qeqb E NN then charge else E; cl_Q := charge; cl_Qc := Qc; cl_nsipm := nsipm |}.
(** evm/event_model.py 156-172: a hit *)
Record hit := { h_cluster : cluster; h_npeak : nat; h_Xpeak : Q; h_Ypeak : Q; h_Ec : Q; h_track : Z; h_Ep : Q }.
(** evm/event_model.py 158-172: Hit.__init__ *)
Definition mk_hit (npeak : nat) (c : cluster) (z e xp yp ec : Q) (track : Z) (ep : Q) : hit :=
  {| h_cluster := mk_cluster (cl_Q c) (cl_x c) (cl_y c) (cl_nsipm c) z e (cl_Qc c);
     h_npeak := npeak; h_Xpeak := xp; h_Ypeak := yp; h_Ec := ec; h_track := track; h_Ep := ep |}.

(** io/hits_io.py 33-47: a row of a table of hits, and which of the columns that may be missing it has; the value in the row of a column that is missing is not used *)
Record hrow := { r_event : Z; r_time : Q; r_npeak : nat; r_Xpeak : Q; r_Ypeak : Q; r_X : Q; r_Y : Q; r_Z : Q; r_Q : Q; r_E : Q; r_Ec : Q; r_track : Z; r_Ep : Q }.
(** with io/hits_io.py 33-47 *)
Record columns := { has_time : bool; has_Q : bool; has_Xpeak : bool; has_Ypeak : bool; has_Ec : bool; has_track : bool; has_Ep : bool }.
(** with io/hits_io.py 34-47: getattr with a default value *)
Definition getattr {A} (has : bool) (value default : A) : A := if has then value else default.

Section Table.
  Variable cols : columns.
  (** io/hits_io.py 40 *)
  Definition charge (r : hrow) : Q := getattr (has_Q cols) (r_Q r) (r_E r).
  (** io/hits_io.py 40-63: the hit of a row *)
  Definition hit_of (r : hrow) : hit :=
    mk_hit (r_npeak r) (mk_cluster (charge r) (r_X r) (r_Y r) 1 (r_Z r) (r_E r) 0) (r_Z r) (r_E r)
           (getattr (has_Xpeak cols) (r_Xpeak r) (-(1000))) (getattr (has_Ypeak cols) (r_Ypeak r) (-(1000)))
           (getattr (has_Ec cols) (r_Ec r) (-(1))) (getattr (has_track cols) (r_track r) (-1)%Z) (getattr (has_Ep cols) (r_Ep r) (-(1))).
  (** io/hits_io.py 17-70: hits_from_df; the grouping is that of TablesModel.v *)
  Definition hits_from_table (dst : list hrow) (skip_NN : bool) : list (Z * (Q * list hit)) :=
    map (fun '(ev, (t, l)) => (ev, (t, map hit_of l)))
        (hits_from_df hrow r_event (if has_time cols then Some r_time else None) (fun r => Qeqb (charge r) NN) dst skip_NN).
  (** io/hits_io.py 73-98: load_hits; [dst] is the outcome of load_dst, that does not ignore errors *)
  Definition load_hits (dst : result (list hrow)) (skip_NN : bool) : result (list (Z * (Q * list hit))) :=
    rbind dst (fun dst => match dst with [] => Ok [] | _ => Ok (hits_from_table dst skip_NN) end).
  (** io/hits_io.py 100-118: load_hits_skipping_NN *)
  Definition load_hits_skipping_NN (dst : result (list hrow)) : result (list (Z * (Q * list hit))) := load_hits dst true.
End Table.

(** evm/event_model.py 286-290: HitCollection *)
Record collection := { c_event : Z; c_time : Q; c_hits : list hit }.
(** evm/event_model.py 292-308: HitCollection.store in a table with the columns of HitsTable; the columns that are not set have the default value of the description, 0. Qc, that is not read, is left out; there is no column Ep. *)
Definition store (c : collection) : list hrow :=
  map (fun h => {| r_event := c_event c; r_time := c_time c; r_npeak := overflow_protection (h_npeak h) u16max; r_Xpeak := h_Xpeak h; r_Ypeak := h_Ypeak h;
                   r_X := cl_x (h_cluster h); r_Y := cl_y (h_cluster h); r_Z := cl_z (h_cluster h); r_Q := cl_Q (h_cluster h); r_E := cl_E (h_cluster h); r_Ec := h_Ec h;
                   r_track := 0%Z; r_Ep := 0 |}) (c_hits c).
(** evm/nh5.py 157-170: HitsTable *)
Definition hits_table : columns := {| has_time := true; has_Q := true; has_Xpeak := true; has_Ypeak := true; has_Ec := true; has_track := true; has_Ep := false |}.
(** evm/event_model.py 292-308: collections stored one after another in a table *)
Definition store_all (l : list collection) : list hrow := flat_map store l.
