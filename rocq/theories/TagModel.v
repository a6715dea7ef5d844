(** Model of the tagging of clusters of hits: reco/hits_functions.py 247-323 (and components.py 1779-1807, which only fixes its arguments) *)
From Verif Require Import Base Arrays PeaksModel ReadModel.
Local Open Scope Q_scope.

Section Dbscan.
  (** sklearn.cluster.DBSCAN (not part of the repository), as its _dbscan_inner.pyx: [neighbours i] are the points within eps of i, with i itself, in order *)
  Variable n : nat.
  Variable neighbours : nat -> list nat.
  Variable is_core : nat -> bool.
  (** labels: None is -1. A depth-first search with an explicit stack, last in first out *)
  Definition unlabelled (labels : list (option nat)) (i : nat) : bool := match nth i labels None with None => true | Some _ => false end.
  (** for hits_functions.py 247-286: tag_hits_in_event *)
  Fixpoint expand (fuel : nat) (label : nat) (stack : list nat) (labels : list (option nat)) : list (option nat) :=
    match fuel, stack with
    | O, _ | _, [] => labels
    | S fuel, i :: stack =>
      if unlabelled labels i then
        let labels := upd i (Some label) labels in
        let new := if is_core i then filter (unlabelled labels) (neighbours i) else [] in
        expand fuel label (rev new ++ stack) labels
      else expand fuel label stack labels
    end.
  (** each step takes a point from the stack; a point adds at most n to it, once *)
  Definition steps : nat := n * S n + 1.
  (** for hits_functions.py 247-286: tag_hits_in_event *)
  Definition start (state : list (option nat) * nat) (i : nat) : list (option nat) * nat :=
    let '(labels, label) := state in
    if negb (unlabelled labels i) || negb (is_core i) then (labels, label) else (expand steps label [i] labels, S label).
  (** for hits_functions.py 247-286: tag_hits_in_event *)
  Definition dbscan : list (option nat) := fst (fold_left start (seq 0 n) (repeat None n, 0%nat)).
End Dbscan.

(** for hits_functions.py 275-284 *)
Record taghit := { th_index : Z; th_event : Z; th_x : Q; th_y : Q; th_z : Q; th_data : Z }.

(** hits_functions.py 275-284: the hits within 1.8 in the scaled coordinates *)
Definition scaled2 (scale_xy scale_z : Q) (a b : taghit) : Q :=
  let dx := th_x a / scale_xy - th_x b / scale_xy in
  let dy := th_y a / scale_xy - th_y b / scale_xy in
  let dz := th_z a / scale_z - th_z b / scale_z in dx * dx + dy * dy + dz * dz.
(** for hits_functions.py 247-286: tag_hits_in_event *)
Definition within_eps (scale_xy scale_z : Q) (hits : list taghit) (i j : nat) : bool :=
  match nth_error hits i, nth_error hits j with
  | Some a, Some b => Qle_bool (scaled2 scale_xy scale_z a b) ((9 # 5) * (9 # 5))
  | _, _ => false
  end.
(** for hits_functions.py 247-286: tag_hits_in_event *)
Definition neighbours_of (scale_xy scale_z : Q) (hits : list taghit) (i : nat) : list nat :=
  filter (within_eps scale_xy scale_z hits i) (seq 0 (length hits)).
(** for hits_functions.py 247-286: tag_hits_in_event *)
Definition cluster_number (l : option nat) : Z := match l with None => (-1)%Z | Some k => Z.of_nat k end.
(** hits_functions.py 247-286: tag_hits_in_event *)
Definition tag_hits_in_event (min_samples : Z) (scale_xy scale_z : Q) (hits : list taghit) : list (taghit * Z) :=
  let nb := neighbours_of scale_xy scale_z hits in
  combine hits (map cluster_number (dbscan (length hits) nb (fun i => (min_samples <=? Z.of_nat (length (nb i)))%Z))).

(** pandas' groupby: the events in increasing order, the rows of each in their own *)
Fixpoint insert_event (e : Z) (l : list Z) : list Z :=
  match l with [] => [e] | f :: l' => if (e <? f)%Z then e :: l else if (e =? f)%Z then l else f :: insert_event e l' end.
(** for hits_functions.py 289-323: cluster_tagger *)
Definition event_keys (hits : list taghit) : list Z := fold_right insert_event [] (map th_event hits).
(** for hits_functions.py 289-323: cluster_tagger *)
Definition with_index (h : taghit) (i : Z) : taghit := {| th_index := i; th_event := th_event h; th_x := th_x h; th_y := th_y h; th_z := th_z h; th_data := th_data h |}.
(** hits_functions.py 289-323: cluster_tagger. A scale of zero, or less than one sample: refused by sklearn. The index of the input is set on the rows as they come out. *)
Definition cluster_tagger (min_samples : Z) (scale_xy scale_z : Q) (hits : list taghit) : result (list (taghit * Z)) :=
  match hits with
  | [] => Ok []
  | _ =>
    if (min_samples <? 1)%Z || Qeqb scale_xy 0 || Qeqb scale_z 0 then Err ValueError
    else let rows := flat_map (fun e => tag_hits_in_event min_samples scale_xy scale_z (filter (fun h => Z.eqb (th_event h) e) hits)) (event_keys hits) in
         Ok (map2 (fun r h => (with_index (fst r) (th_index h), snd r)) rows hits)
  end.
