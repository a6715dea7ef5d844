(** What C90 says *)
From Verif Require Import Base PeaksModel CorrModel CorrSpec KmapModel KmapSpec ZemModel.
Local Open Scope Q_scope.

(** [x] is in the interval number [k] of [n] from [a] to [b], and not on one of its ends *)
Definition inside_interval (a b : Q) (n k : nat) (x : Q) : Prop := a + qn k * ((b - a) / qn n) < x < a + qn (S k) * ((b - a) / qn n).
Section Spec.
  Variables (xy0 xy1 dt0 dt1 : Q) (n nz : nat) (s0 s1 : Q).
  (** the event is in the bin, and its energy in the range of the map *)
  Definition in_cell (p : key) (e : krevent) : bool :=
    let '(k, i, j) := p in
    match kX e, kY e, kDT e, kS2e e with
    | Some x, Some y, Some t, Some s => is_in_bin dt0 dt1 nz k t && is_in_bin xy0 xy1 n i x && is_in_bin xy0 xy1 n j y && (Qle_bool s0 s && Qltb s s1)
    | _, _, _, _ => false
    end.
  (** it is not on the border of the bin *)
  Definition off_border (p : key) (e : krevent) : Prop :=
    let '(k, i, j) := p in exists t x y, kDT e = Some t /\ kX e = Some x /\ kY e = Some y /\ inside_interval dt0 dt1 nz k t /\ inside_interval xy0 xy1 n i x /\ inside_interval xy0 xy1 n j y.
  (** the energies of the events of a bin, before and after the correction *)
  Definition raw (df : list krevent) (p : key) : list Q := numbers (map kS2e (filter (in_cell p) df)).
  Definition corrected (df : list krevent) (ec : list val) (p : key) : list Q := numbers (map snd (filter (fun ec => in_cell p (fst ec)) (combine df ec))).
End Spec.
(** all the values of a list have median [m] *)
Definition has_median (l : list Q) (m : Q) : Prop := exists m', is_median l m' /\ m' == m.
Definition complete (df : list krevent) : Prop := forall e, In e df -> kX e <> None /\ kY e <> None /\ kDT e <> None.
(** the normalization has a bin to work with *)
Definition can_normalize (rows : list map_row) (method : norm_method) (xy : option region) : Prop :=
  exists b, In b (map bin_of_row rows) /\ used_bin method xy b = true /\ kb_mu b <> None.
