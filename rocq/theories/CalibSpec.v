(** Vocabulary for C48, C54 and C55 *)
From Verif Require Import Base PeaksModel CalibModel.
Local Open Scope nat_scope.

(** ---- C54 ---- *)
(** the middle of a list of numbers *)
Definition is_median (l : list Q) (m : Q) : Prop :=
  exists s, Permutation l s /\ StronglySorted Qle s /\
    m = (if Nat.even (length s) then (nth (length s / 2 - 1) s 0 + nth (length s / 2) s 0) / 2 else nth (length s / 2) s 0)%Q.
(** the smallest of the most frequent values of [l] *)
Definition is_mode (l : list Z) (m : Z) : Prop :=
  In m l /\ forall x, In x l -> count_occ Z.eq_dec l x <= count_occ Z.eq_dec l m /\ (count_occ Z.eq_dec l x = count_occ Z.eq_dec l m -> (m <= x)%Z).
(** the baseline of a waveform: computed from the samples that are not 0 (mean, median), that are positive (mode), or from all of them *)
Definition is_baseline (m : bls_mode) (wf : list Z) (b : Q) : Prop :=
  let samples := map inject_Z (filter (fun x => negb (x =? 0)%Z) wf) in
  let positive := filter (fun x => (0 <? x)%Z) wf in
  match m with
  | BlsMean => (samples = [] /\ b = 0%Q) \/ (samples <> [] /\ b * inject_Z (Z.of_nat (length samples)) == sumQ samples)%Q
  | BlsMedian => (samples = [] /\ b = 0%Q) \/ (samples <> [] /\ is_median samples b)
  | BlsMode => (positive = [] /\ b = 0%Q) \/ exists z, b = inject_Z z /\ is_mode positive z
  | BlsScipyMode => wf = [] \/ exists z, b = inject_Z z /\ is_mode wf z
  | BlsOther => False
  end.
(** the average of the last [n] samples up to the sample [k]; there is nothing before the first *)
Definition moving_average (n : nat) (wf : list Q) (k : nat) : Q := (sumF (fun i => if i <=? k then nth (k - i) wf 0 else 0) (seq 0 n) / inject_Z (Z.of_nat n))%Q.

(** ---- C48 ---- *)
(** the limits of a list of windows *)
Definition limits_of (ws : list (Z * Z)) : list Z := flat_map (fun w => [fst w; snd w]) ws.
(** windows one after the other *)
Definition successive (ws : list (Z * Z)) : Prop := StronglySorted Z.le (limits_of ws).
Definition inside (L : Z) (w : Z * Z) : bool := (0 <=? fst w)%Z && (snd w <=? L)%Z.
Definition how_many_limits (p : Z -> bool) (ws : list (Z * Z)) : nat := length (filter p (limits_of ws)).
(** at most half of the limits are before the buffer, and at most half after it *)
Definition half_out (L : Z) (ws : list (Z * Z)) : Prop :=
  how_many_limits (fun x => x <? 0)%Z ws <= length ws /\ how_many_limits (fun x => L <? x)%Z ws <= length ws.
(** the windows asked for *)
Definition windows (n : nat) (first width period : Z) : list (Z * Z) :=
  map (fun k => (first + Z.of_nat k * period, first + width + Z.of_nat k * period)%Z) (seq 0 n).

(** ---- C55 ---- *)
(** there is no signal in a sample, and the accumulator may discharge *)
Definition quiet (trigger thr_acum x acum : Q) : Prop := (x < trigger /\ acum < thr_acum)%Q.
(** the accumulator: it is the sum of the samples while there is signal, and discharges otherwise *)
Definition accumulates (coef trigger thr_acum : Q) (y acum : list Q) : Prop :=
  length acum = length y /\ (nth 0 acum 0 == 0)%Q /\
  forall k, S k < length y -> let a := nth k acum 0%Q in let x := nth (S k) y 0%Q in
    (quiet trigger thr_acum x a -> (1 < a)%Q -> (nth (S k) acum 0 == a * (1 - coef))%Q) /\
    (quiet trigger thr_acum x a -> (a <= 1)%Q -> (nth (S k) acum 0 == 0)%Q) /\
    (~ quiet trigger thr_acum x a -> (nth (S k) acum 0 == a + x)%Q).
(** a digital filter with one pole *)
Definition filtered (b0 b1 a1 : Q) (x y : list Q) : Prop :=
  length y = length x /\ (forall k, k < length x -> (nth k y 0 == b0 * nth k x 0 + (if k =? 0 then 0 else b1 * nth (k - 1) x 0 - a1 * nth (k - 1) y 0))%Q).
(** [t] is [thr] times the root mean square of the first 400 samples *)
Definition trigger_of (sqrt : Q -> Q) (thr : Q) (wf : list Q) : Q := (thr * sqrt (sumF (fun x => x * x) (firstn 400 wf) / 400))%Q.
