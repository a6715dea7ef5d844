(** Model of the waveforms of sierpe/waveform_generator.py, with exact arithmetic. Times are numbers of samples. The draws of numpy.random.randn are a function of the call and of the position in it. *)
From Verif Require Import Base PeaksModel.
Local Open Scope Q_scope.

(** waveform_generator.py 20-27: WfmPar without the type *)
Record wfmpar := { t_tot : nat; t_pre : nat; t_rise : nat; t_flat : nat; noise : Q; q_s2 : Q }.
(** waveform_generator.py 15-17: Point *)
Definition point : Type := (Q * Q)%type.
(** waveform_generator.py 43-49: line *)
Definition line (x : Q) (p1 p2 : point) : Q :=
  let b := (snd p2 - snd p1) / (fst p2 - fst p1) in
  let a := (snd p1 * fst p2 - snd p2 * fst p1) / (fst p2 - fst p1) in a + b * x.
(** numpy: a[f:l] = v, with as many values as places; arrays of [t_tot] samples by position *)
Definition assign (f l : nat) (v : nat -> Q) (a : nat -> Q) : nat -> Q := fun i => if ((f <=? i) && (i <? l))%nat then v (i - f)%nat else a i.
(** for waveform_generator.py 52-54: np.zeros *)
Definition zeros : nat -> Q := fun _ => 0.

Section Draws.
  Variable randn : nat -> nat -> Q.
  (** waveform_generator.py 35-86: square_waveform. Without samples for the rise the line has no slope: nan or inf, not modelled. *)
  Definition square_waveform (w : wfmpar) : result (list Q) :=
    let t_s2 := (2 * t_rise w + t_flat w)%nat in
    if negb (t_s2 + t_pre w <? t_tot w)%nat then Err AssertionError else
    if (t_rise w =? 0)%nat then Err NotModelled else
    let wf_noise k i := noise w * randn k i in
    let sgn_pre := assign 0 (t_pre w) (wf_noise 0%nat) zeros in
    let f := t_pre w in let l := (f + t_rise w)%nat in
    let sgn_s2 := assign f (l + 1) (fun i => line (qn (f + i)) (qn f, 0) (qn l, q_s2 w) + wf_noise 1%nat i) zeros in
    let f := l in let l := (f + t_flat w)%nat in
    let sgn_s2 := assign f l (fun i => q_s2 w + wf_noise 2%nat i) sgn_s2 in
    let f := l in let l := (f + t_rise w)%nat in
    let sgn_s2 := assign f (l + 1) (fun i => line (qn (f + i)) (qn f, q_s2 w) (qn l, 0) + wf_noise 3%nat i) sgn_s2 in
    let f := l in let l := t_tot w in
    let sgn_post := assign f l (wf_noise 4%nat) zeros in
    Ok (map (fun i => sgn_pre i + sgn_s2 i + sgn_post i) (seq 0 (t_tot w))).
End Draws.

(** numpy.linspace *)
Definition linspace (a b : Q) (n : nat) : list Q := match n with O => [] | 1%nat => [a] | _ => map (fun i => a + qn i * ((b - a) / qn (n - 1))) (seq 0 n) end.
(** waveform_generator.py 89-108: sawteeth_waveform; np.zeros of a negative number raises ValueError *)
Definition sawteeth_waveform (w : wfmpar) : result (list Q) :=
  let tooth := linspace 0 (q_s2 w) (t_rise w) ++ linspace (q_s2 w) (q_s2 w) (t_flat w) ++ linspace (q_s2 w) 0 (t_rise w) in
  let rest := (Z.of_nat (t_tot w) - Z.of_nat (t_pre w) - 3 * (Z.of_nat (t_rise w) + 2 * Z.of_nat (t_flat w)))%Z in
  if (rest <? 0)%Z then Err ValueError else Ok (repeat 0 (t_pre w) ++ tooth ++ tooth ++ tooth ++ repeat 0 (Z.to_nat rest)).
