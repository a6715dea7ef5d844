(** Model of invisible_cities/reco/xy_algorithms.py. The arrays of positions and charges
    are a single list of sensors (position, charge). *)
From Verif Require Import Base WfmModel Arrays.
Local Open Scope Q_scope.

(** for xy_algorithms.py 234-253 *)
Definition sensor : Type := (Q * Q) * Q.
(** for xy_algorithms.py 234-253 *)
Definition spos (s : sensor) : Q * Q := fst s.
(** for xy_algorithms.py 55-84: barycenter *)
Definition sX (s : sensor) : Q := fst (fst s).
(** for xy_algorithms.py 55-84: barycenter *)
Definition sY (s : sensor) : Q := snd (fst s).
(** for xy_algorithms.py 21-52: threshold_check *)
Definition charge (s : sensor) : Q := snd s.

(** core/exceptions.py *)
Definition SipmEmptyList : pyexc := Other 10.
(** exceptions.py 29-30: SipmZeroCharge *)
Definition SipmZeroCharge : pyexc := Other 11.
(** exceptions.py 23-24: SipmEmptyListAboveQthr *)
Definition SipmEmptyListAboveQthr : pyexc := Other 12.
(** exceptions.py 32-33: SipmZeroChargeAboveQthr *)
Definition SipmZeroChargeAboveQthr : pyexc := Other 13.
(** exceptions.py 26-27: ClusterEmptyList *)
Definition ClusterEmptyList : pyexc := Other 14.

(** xy_algorithms.py 21-52: threshold_check *)
Definition threshold_check (ss : list sensor) (thr : Q) : result (list sensor) :=
  match ss with
  | [] => Err SipmEmptyList
  | _ =>
    if Qeqb (sumF charge ss) 0 then Err SipmZeroCharge else
    let above := filter (fun s => Qle_bool thr (charge s)) ss in
    match above with
    | [] => Err SipmEmptyListAboveQthr
    | _ => if Qeqb (sumF charge above) 0 then Err SipmZeroChargeAboveQthr else Ok above
    end
  end.

(** evm/event_model.py 112-124: the fields of a Cluster that are set by the algorithms *)
Record cluster := { cQ : Q; cx : Q; cy : Q; cvx : Q; cvy : Q; cn : nat }.

(** core_functions.py 83-129: weighted_mean_and_var with the default (biased) estimator, one coordinate *)
Definition waverage (w x : sensor -> Q) (l : list sensor) : Q := sumF (fun s => w s * x s) l / sumF w l.

(** xy_algorithms.py 55-84: barycenter *)
Definition barycenter (ss : list sensor) (thr : Q) : result cluster :=
  rbind (threshold_check ss thr) (fun l =>
  let mx := waverage charge sX l in
  let my := waverage charge sY l in
  Ok {| cQ := sumF charge l; cx := mx; cy := my;
        cvx := waverage charge (fun s => (sX s - mx) * (sX s - mx)) l;
        cvy := waverage charge (fun s => (sY s - my) * (sY s - my)) l;
        cn := length l |}).

(** np.argmax: the first of the largest charges *)
Definition hottest (ss : list sensor) : option sensor :=
  match ss with
  | [] => None
  | s :: l => Some (fold_left (fun best s => if Qltb (charge best) (charge s) then s else best) l s)
  end.

(** xy_algorithms.py 104-116: count_masked; [all] lists the position and the Active flag of every SiPM *)
Definition count_masked (center : Q * Q) (d : Q) (all : list ((Q * Q) * bool)) : nat :=
  count (fun p => within d (fst p) center && negb (snd p)) all.

Section Corona.
  Variables (all : list ((Q * Q) * bool)) (Qlm lm_radius new_lm_radius : Q) (msipm : Z) (consider_masked : bool).

  (** for xy_algorithms.py 234-253 *)
  Definition nmasked (center : Q * Q) : Z :=
    if consider_masked then Z.of_nat (count_masked center new_lm_radius all) else 0%Z.

  (** xy_algorithms.py 255-257 *)
  Definition finish (c : list cluster) : result (list cluster) :=
    match c with [] => Err ClusterEmptyList | _ => Ok c end.

  (** xy_algorithms.py 234-253. The while loop is unrolled [fuel] times; None means that it
      is still running. discard_sipms removes the positions selected by get_nearby_sipm_inds,
      here the complementary filter. *)
  Fixpoint corona_loop (fuel : nat) (ss : list sensor) (c : list cluster) : option (result (list cluster)) :=
    match fuel with
    | O => None
    | S fuel =>
      match hottest ss with
      | None => Some (finish c)
      | Some h =>
        if Qltb (charge h) Qlm then Some (finish c) else
        match barycenter (filter (fun s => within lm_radius (spos s) (spos h)) ss) 0 with
        | Err e => Some (Err e)
        | Ok c0 =>
          let center := (cx c0, cy c0) in
          let inside := filter (fun s => within new_lm_radius (spos s) center) ss in
          let outside := filter (fun s => negb (within new_lm_radius (spos s) center)) ss in
          if (msipm - nmasked center <=? Z.of_nat (length inside))%Z then
            match barycenter inside 0 with
            | Err e => Some (Err e)
            | Ok k => corona_loop fuel outside (c ++ [k])
            end
          else corona_loop fuel outside c
        end
      end
    end.

  (** xy_algorithms.py 119-257: corona *)
  Definition corona (fuel : nat) (ss : list sensor) (Qthr : Q) : option (result (list cluster)) :=
    if negb (Qle_bool 0 lm_radius && Qle_bool 0 new_lm_radius) then Some (Err AssertionError) else
    match threshold_check ss Qthr with
    | Err e => Some (Err e)
    | Ok ss => corona_loop fuel ss []
    end.
End Corona.
