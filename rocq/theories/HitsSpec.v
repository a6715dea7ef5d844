(** Independent vocabulary for the properties of hits *)
From Verif Require Import Base HitsModel.
Local Open Scope Q_scope.

(** value of an energy column; [finite] says that it is a number *)
Definition val (x : num) : Q := match x with Some x => x | None => 0 end.
Definition finite (x : num) : Prop := exists q, x = Some q.
Definition positive (x : num) : Prop := exists q, x = Some q /\ 0 < q.
Definition total (col : hit -> num) (l : list hit) : Q := sumF (fun h => val (col h)) l.
Definition NNhit (h : hit) : Prop := hQ h == NN.

(** same hit, possibly with other energies *)
Definition same_row (h h' : hit) : Prop :=
  hmeta h' = hmeta h /\ npeak h' = npeak h /\ hX h' = hX h /\ hY h' = hY h /\ hZ h' = hZ h /\ hQ h' = hQ h.

(** [h] may receive energy from [nn]; it does if its distance in Z is (within the
    tolerance of numpy.isclose) the smallest one *)
Definition eligible (same_peak : bool) (nn h : hit) : Prop := same_peak = true -> npeak h = npeak nn.
Definition dist (nn h : hit) : Q := Qabs (hZ h - hZ nn).
Definition receives (same_peak : bool) (rest : list hit) (nn h : hit) : Prop :=
  eligible same_peak nn h /\
  exists m, In m rest /\ eligible same_peak nn m /\
  (forall x, In x rest -> eligible same_peak nn x -> dist nn m <= dist nn x) /\
  Qabs (dist nn h - dist nn m) <= (1 # 100000000) + (1 # 100000) * dist nn m.

(** the hits of the slice at [z] *)
Definition slice_at (z : Q) (l : list hit) : list hit := filter (fun h => Qeqb (hZ h) z) l.

(** [out] is the slice [s] after the threshold *)
Definition thresholded (th : Q) (s out : list hit) : Prop :=
  let sel := filter (fun h => Qle_bool th (hQ h)) s in
  let qsum := sumF hQ sel in
  (sel <> [] /\
   Forall2 (fun h h' => same_row h h' /\
              (exists e, hE h' = Some e /\ e * (qsum + EPSILON) == hQ h * (total hE s + EPSILON)) /\
              (exists e, hEc h' = Some e /\ e * (qsum + EPSILON) == hQ h * (total hEc s + EPSILON))) sel out /\
   total hE out * (qsum + EPSILON) == qsum * (total hE s + EPSILON) /\
   total hEc out * (qsum + EPSILON) == qsum * (total hEc s + EPSILON))
  \/
  (sel = [] /\ exists first rest nn, s = first :: rest /\ out = [nn] /\
   hmeta nn = hmeta first /\ npeak nn = npeak first /\ hZ nn = hZ first /\
   hX nn = NN /\ hY nn = NN /\ hQ nn = NN /\
   (exists e, hE nn = Some e /\ e == total hE s) /\ (exists e, hEc nn = Some e /\ e == total hEc s))
  \/ (s = [] /\ out = []).
