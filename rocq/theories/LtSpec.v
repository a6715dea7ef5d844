(** Light tables: which row of the table gives the light *)
From Verif Require Import Base Arrays PeaksModel.
Local Open Scope Q_scope.

(** c is the centre nearest to x; the lower one of two at the same distance *)
Definition nearest_centre (centres : list Q) (x c : Q) : Prop :=
  In c centres /\ forall d, In d centres -> Qabs (x - c) <= Qabs (x - d) /\ (Qabs (x - c) == Qabs (x - d) -> c <= d).
(** the position is in the active volume and between the first and last z of the table *)
Definition in_volume (act_r : Q) (zs : list Q) (x y z : Q) : Prop :=
  0 <= act_r /\ x * x + y * y <= act_r * act_r /\ (exists a, In a zs /\ a <= z) /\ exists b, In b zs /\ z <= b.
(** the light at a position *)
Definition light_at (table : list (Q * Q * Q * list Q)) (nsensors : nat) (act_r : Q) (p : Q * Q * Q) (v : list Q) : Prop :=
  let '(x, y, z) := p in
  let xs := map (fun r => fst (fst (fst r))) table in
  let ys := map (fun r => snd (fst (fst r))) table in
  let zs := map (fun r => snd (fst r)) table in
  (~ in_volume act_r zs x y z -> v = repeat 0 nsensors) /\
  (in_volume act_r zs x y z -> exists cx cy cz, nearest_centre xs x cx /\ nearest_centre ys y cy /\ nearest_centre zs z cz /\
     ((exists r, In r table /\ fst (fst (fst r)) == cx /\ snd (fst (fst r)) == cy /\ snd (fst r) == cz /\ v = snd r) \/
      ((forall r, In r table -> ~ (fst (fst (fst r)) == cx /\ snd (fst (fst r)) == cy /\ snd (fst r) == cz)) /\ v = repeat 0 nsensors))).
(** no position twice in the table *)
Definition distinct_positions (table : list (Q * Q * Q * list Q)) : Prop :=
  ForallOrdPairs (fun r s => ~ (fst (fst (fst r)) == fst (fst (fst s)) /\ snd (fst (fst r)) == snd (fst (fst s)) /\ snd (fst r) == snd (fst s))) table.

(** griddata takes a point of the table not farther than any other *)
Definition plane2 (p q : Q * Q) : Q := (fst p - fst q) * (fst p - fst q) + (snd p - snd q) * (snd p - snd q).
Definition takes_nearest (nearest : list (Q * Q) -> Q * Q -> nat) : Prop :=
  forall l p, l <> [] -> (nearest l p < length l)%nat /\ forall q, In q l -> plane2 p (nth (nearest l p) l (0, 0)) <= plane2 p q.
