(** Model of RadioactivityData and PMTLowFrequencyNoise of database/load_db.py. What sqlite does is taken from its documentation: a column that is neither grouped nor aggregated, beside MAX, has the value of a row with the maximum. The order of the groups, and the cache, are not modelled; versions are integers that are not NULL. *)
From Coq Require Import String.
From Verif Require Import Base PeaksModel DbModel.
Local Open Scope Z_scope.

(** load_db.py 155-161: a row of the table Activity or Efficiency *)
Record arow := { a_volume : string; a_isotope : string; a_version : Z; a_value : Q }.
(** with load_db.py 155-158: a group *)
Definition key (r : arow) : string * string := (a_volume r, a_isotope r).
(** for load_db.py 155-158: the equality of groups *)
Definition same (k l : string * string) : bool := (String.eqb (fst k) (fst l) && String.eqb (snd k) (snd l))%bool.
(** for load_db.py 155-158: the row that a group has: that with the greatest version; which of several is not defined by sqlite, here the first *)
Fixpoint update (r : arow) (l : list arow) : list arow :=
  match l with
  | [] => [r]
  | s :: l => if same (key r) (key s) then (if a_version s <? a_version r then r else s) :: l else s :: update r l
  end.
(** load_db.py 155-158: select ... max(Version) ... where Version <= v group by G4Volume, Isotope, without the version (164-165) *)
Definition latest (t : list arow) (v : Z) : list (string * string * Q) :=
  map (fun r => (a_volume r, a_isotope r, a_value r)) (fold_left (fun l r => update r l) (filter (fun r => a_version r <=? v) t) []).
(** load_db.py 153: select max(Version) *)
Definition max_version (t : list arow) : option Z := match t with [] => None | r :: t => Some (fold_left (fun m r => Z.max m (a_version r)) t (a_version r)) end.
(** pandas.errors.DatabaseError, for "no such column: None" *)
Definition database_error : pyexc := Other 131.
(** load_db.py 148-165: RadioactivityData *)
Definition RadioactivityData (activity efficiency : list arow) (version : option Z) : result (list (string * string * Q) * list (string * string * Q)) :=
  match (match version with Some v => Some v | None => max_version activity end) with
  | Some v => Ok (latest activity v, latest efficiency v)
  | None => Err database_error
  end.
(** load_db.py 126-144: PMTLowFrequencyNoise. A row of PMTFEMapping is a sensor and its box, one of PMTFELowFrequencyNoise a frequency and the magnitudes of the boxes; the columns of the boxes, and the order of the frequencies, for which there is no ORDER BY, are those of the table. *)
Definition PMTLowFrequencyNoise (boxes : list (dated (Z * Z))) (frequencies : list (dated (Q * list Q))) (run : Z) : list (Z * Z) * list (Q * list Q) :=
  (sort_by (fun a b => fst a <=? fst b) (current_open (Z.abs run) boxes), current_open (Z.abs run) frequencies).
