(** Model of the binned averages of core/fit_functions.py: profileX, profileY, profileXY (229-389). Exact arithmetic; [None] is NaN. *)
From Verif Require Import Base Arrays PeaksModel WfmModel CorrModel DbModel.
Local Open Scope Q_scope.

(** np.min(data), np.max(data): ValueError for no data *)
Definition extremes (l : list Q) : result (Q * Q) := match l with [] => Err ValueError | a :: l => Ok (fold_left Qmin l a, fold_left Qmax l a) end.
(** pandas groupby(...).y: the keys in increasing order, each one with its values *)
Definition groups {A} (key : A -> nat) (value : A -> Q) (rows : list A) : list (nat * list Q) :=
  map (fun n => (n, map value (filter (fun r => (key r =? n)%nat) rows))) (sort_by Nat.leb (nodup Nat.eq_dec (map key rows))).
(** for fit_functions.py 320-389 *)
Definition le2 (a b : nat * nat) : bool := ((fst a <? fst b) || ((fst a =? fst b) && (snd a <=? snd b)))%nat.
(** for fit_functions.py 320-389 *)
Definition eq2 (a b : nat * nat) : bool := ((fst a =? fst b) && (snd a =? snd b))%nat.
Lemma eq2_dec (a b : nat * nat) : {a = b} + {a <> b}. Proof. decide equality; apply Nat.eq_dec. Defined.
(** for fit_functions.py 320-389 *)
Definition groups2 {A} (key : A -> nat * nat) (value : A -> Q) (rows : list A) : list ((nat * nat) * list Q) :=
  map (fun n => (n, map value (filter (fun r => eq2 (key r) n) rows))) (sort_by le2 (nodup eq2_dec (map key rows))).

Section Root.
  (** the square root *)
  Variable root : Q -> Q.
  (** pandas std(): with one degree of freedom less, NaN for one value; divided by size()**0.5 unless [std] *)
  Definition squares (l : list Q) : Q := sumF (fun y => (y - meanQ l) * (y - meanQ l)) l.
  (** for fit_functions.py 229-286 *)
  Definition deviation (std : bool) (l : list Q) : option Q :=
    if (length l <=? 1)%nat then None
    else let d := root (squares l / (qn (length l) - 1)) in Some (if std then d else d / root (qn (length l))).
  (** fit_functions.py 229-286 *)
  Definition profileX (xdata ydata : list Q) (nbins : nat) (xrange yrange : option (Q * Q)) (std drop_nan : bool) : result (list Q * list (option Q) * list (option Q)) :=
    rbind (match xrange with Some r => Ok r | None => extremes xdata end) (fun r =>
    if negb (length xdata =? length ydata)%nat then Err IndexError
    else
      let rows := filter (fun p => in_range (fst p) (fst r) (snd r)) (combine xdata ydata) in
      let rows := match yrange with None => rows | Some y => filter (fun p => in_range (snd p) (fst y) (snd y)) rows end in
      let edges := linspace (fst r) (snd r) nbins in
      let centers := shift_to_bin_centers edges in
      let gb := groups (fun p => digitize (fst p) edges) snd rows in
      rbind (rmap (fun g => match nth_error centers (fst g - 1) with Some c => Ok c | None => Err IndexError end) gb) (fun cs =>
      if drop_nan then Ok (cs, map (fun g => Some (meanQ (snd g))) gb, map (fun g => deviation std (snd g)) gb)
      else Ok (centers, fold_left (fun m g => upd (fst g - 1) (Some (meanQ (snd g))) m) gb (map (fun _ => None) centers),
                        fold_left (fun m g => upd (fst g - 1) (deviation std (snd g)) m) gb (map (fun _ => None) centers)))).
  (** fit_functions.py 289-317 *)
  Definition profileY (xdata ydata : list Q) (nbins : nat) (yrange xrange : option (Q * Q)) (std drop_nan : bool) := profileX ydata xdata nbins yrange xrange std drop_nan.
  (** fit_functions.py 320-389; the values of no row cannot be unpacked: ValueError. drop_nan is not used. *)
  Definition profileXY (xdata ydata zdata : list Q) (nbinsx nbinsy : nat) (xrange yrange zrange : option (Q * Q)) (std : bool) : result (list Q * list Q * list (list Q) * list (list Q)) :=
    rbind (match xrange with Some r => Ok r | None => extremes xdata end) (fun rx =>
    rbind (match yrange with Some r => Ok r | None => extremes ydata end) (fun ry =>
    if negb (length xdata =? length ydata)%nat then Err ValueError
    else if negb (length xdata =? length zdata)%nat then Err IndexError
    else
      let rows := filter (fun p => in_range (fst (fst p)) (fst rx) (snd rx) && in_range (snd (fst p)) (fst ry) (snd ry)) (combine (combine xdata ydata) zdata) in
      let rows := match zrange with None => rows | Some z => filter (fun p => in_range (snd p) (fst z) (snd z)) rows end in
      let ex := linspace (fst rx) (snd rx) nbinsx in
      let ey := linspace (fst ry) (snd ry) nbinsy in
      let gb := groups2 (fun p => (digitize (fst (fst p)) ex, digitize (snd (fst p)) ey)) snd rows in
      match gb with
      | [] => Err ValueError
      | _ =>
        if forallb (fun g => (fst (fst g) - 1 <? nbinsx) && (snd (fst g) - 1 <? nbinsy))%nat gb then
          let put f := fold_left (fun m g => upd (fst (fst g) - 1) (upd (snd (fst g) - 1) (f (snd g)) (nth (fst (fst g) - 1) m [])) m) gb (repeat (repeat 0 nbinsy) nbinsx) in
          Ok (shift_to_bin_centers ex, shift_to_bin_centers ey, put meanQ, put (fun l => match deviation std l with Some d => d | None => 0 end))
        else Err IndexError
      end)).
End Root.
