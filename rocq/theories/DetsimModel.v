(** Model of detsim: detsim/simulate_electrons.py, detsim/s2_waveforms_c.pyx and the functions of cities/detsim.py between them.
    Exact arithmetic. Random draws are arbitrary functions of the position of the draw. *)
From Verif Require Import Base Arrays PeaksModel BuffersModel CorrModel.
Local Open Scope Q_scope.

(** ------------------------------------------------------------------ *)
(** cities/detsim.py 48-90: the selection of the hits. A hit carries all its columns, which the code keeps in parallel arrays *)
Record mchit := { hx : Q; hy : Q; hz : Q; he : Q; htime : Q; hlabel : nat }.

(** 48-60: filter_hits_after_max_time. min of an empty array is a ValueError *)
Definition filter_hits_after_max_time (max_time : Q) (hits : list mchit) : result (list mchit) :=
  match hits with
  | [] => Err ValueError
  | h :: hs =>
      let tmin := fold_left (fun m g => Qmin m (htime g)) hs (htime h) in
      let sel g := Qltb (htime g - tmin) max_time in
      if forallb sel hits then Ok hits else Ok (filter sel hits)
  end.

(** 63-90: hits_selector, for files whose label is a number. The names of the volumes come with their numbers; a file without one of the names: IndexError.
    (In the old format the label is the name itself: take the pairs (name, name).) *)
Definition label_number (names : list (nat * nat)) (name : nat) : result nat :=
  match filter (fun p => Nat.eqb (fst p) name) names with [] => Err IndexError | p :: _ => Ok (snd p) end.
(** detsim.py 64-90: hits_selector *)
Definition hits_selector (ACTIVE BUFFER : nat) (active_only : bool) (names : list (nat * nat)) (hits : list mchit) : result (list mchit) :=
  rbind (label_number names ACTIVE) (fun active => rbind (label_number names BUFFER) (fun buff =>
    Ok (filter (fun h => Nat.eqb (hlabel h) active || (negb active_only && Nat.eqb (hlabel h) buff)) hits))).

(** ------------------------------------------------------------------ *)
(** detsim/simulate_electrons.py *)
Section Electrons.
(** numpy.random.poisson for the i-th hit, and the standard normal draws *)
Variable poisson : nat -> nat.
Variable gauss : nat -> Q.
Variable sqrtQ : Q -> Q.
(** numpy.round to the nearest integer (half to even) *)
Definition np_round (q : Q) : Z :=
  let f := Qfloor q in let d := q - inject_Z f in
  if Qltb d (1#2) then f else if Qltb (1#2) d then (f + 1)%Z else if Z.even f then f else (f + 1)%Z.

(** simulate_electrons.py 7-36: generate_ionization_electrons. poisson of a negative mean is a ValueError *)
Definition ionization (wi fano : Q) (i : nat) (e : Q) : result nat :=
  let nes := e / wi in let var := nes * fano in
  if Qltb var 1 then if Qltb nes 0 then Err ValueError else Ok (poisson i)
  else let n := np_round (nes + sqrtQ var * gauss i) in Ok (if (n <? 0)%Z then 0%nat else Z.to_nat n).
(** simulate_electrons.py 7-36: generate_ionization_electrons *)
Definition generate_ionization_electrons (wi fano : Q) (energies : list Q) : result (list nat) :=
  if Qeqb wi 0 then Err NotModelled
  else rmap (fun p => ionization wi fano (fst p) (snd p)) (combine (seq 0 (length energies)) energies).

(** simulate_electrons.py 39-63: drift_electrons. [decay i k]: the time -lifetime * log(uniform) of the k-th electron of the i-th hit.
    numpy.vectorize of no hits is a ValueError *)
Variable decay : nat -> nat -> Q.
(** simulate_electrons.py 59-60: attachment *)
Definition attachment (i n : nat) (t : Q) : nat := count (fun k => Qltb t (decay i k)) (seq 0 n).
(** simulate_electrons.py 39-63: drift_electrons *)
Definition drift_electrons (drift_velocity : Q) (zs : list Q) (n_electrons : list nat) : result (list nat) :=
  if Qeqb drift_velocity 0 then Err NotModelled
  else if negb (Nat.eqb (length zs) (length n_electrons)) then Err ValueError
  else match zs with
       | [] => Err ValueError
       | _ => Ok (mapi (fun i p => attachment i (snd p) (fst p / drift_velocity)) (combine zs n_electrons))
       end.

(** numpy.repeat(l, n) *)
Definition np_repeat {A} (l : list A) (n : list nat) : list A := concat (map2 (fun a k => repeat a k) l n).

(** simulate_electrons.py 66-101: diffuse_electrons. numpy.random.normal(mean, sigma) is mean + sigma * draw; a negative sigma is a ValueError *)
Definition normal (draw : nat -> Q) (means sigmas : list Q) : result (list Q) :=
  if existsb (fun s => Qltb s 0) sigmas then Err ValueError
  else Ok (mapi (fun k p => fst p + snd p * draw k) (combine means sigmas)).
Variables draw_x draw_y draw_z draw_ph : nat -> Q.
(** simulate_electrons.py 66-101: diffuse_electrons *)
Definition diffuse_electrons (xs ys zs : list Q) (n : list nat) (tr lo : Q) : result (list Q * list Q * list Q) :=
  let xs := np_repeat xs n in
  let ys := np_repeat ys n in
  let zs := map (fun z => if Qltb z 0 then 0 else z) (np_repeat zs n) in
  let sqrtz := map sqrtQ zs in
  rbind (normal draw_x xs (map (fun s => s * tr) sqrtz)) (fun dxs =>
  rbind (normal draw_y ys (map (fun s => s * tr) sqrtz)) (fun dys =>
  rbind (normal draw_z zs (map (fun s => s * lo) sqrtz)) (fun dzs =>
  Ok (dxs, dys, dzs)))).

(** cities/detsim.py 93-114: ielectron_simulator *)
Record electron := { ex : Q; ey : Q; et : Q; eph : Z }.
(** detsim.py 106-113: simulate_ielectrons *)
Definition simulate_ielectrons (wi fano drift_velocity tr lo el_gain conde : Q) (hits : list mchit) : result (list electron * list Q) :=
  rbind (generate_ionization_electrons wi fano (map he hits)) (fun n0 =>
  rbind (drift_electrons drift_velocity (map hz hits) n0) (fun n =>
  rbind (diffuse_electrons (map hx hits) (map hy hits) (map hz hits) n tr lo) (fun d =>
  let '(dx, dy, dz) := d in
  let dtimes := map2 (fun z t => z / drift_velocity + t) dz (np_repeat (map htime hits) n) in
  rbind (normal draw_ph (repeat el_gain (sumN n)) (repeat (sqrtQ (el_gain * conde)) (sumN n))) (fun ph =>
  let nphotons := map np_round ph in
  Ok (map2 (fun xy tp => {| ex := fst xy; ey := snd xy; et := fst tp; eph := snd tp |}) (combine dx dy) (combine dtimes nphotons), dz))))).
End Electrons.

(** cities/detsim.py 117-128: buffer_times_and_length_getter. The minimum or maximum of nothing is a ValueError *)
Definition get_buffer_times_and_length (pmt_width sipm_width el_gap el_dv max_length : Q) (time times_ph : list Q) : result (Q * Q) :=
  let w := Qmax pmt_width sipm_width in
  match time, times_ph with
  | t :: ts, p :: ps =>
      let start_time := inject_Z (Qfloor (fold_left Qmin ts t / w)) * w in
      let el_traverse_time := el_gap / el_dv in
      let end_time := inject_Z (Qceiling ((fold_left Qmax ps p + el_traverse_time) / w)) * w in
      Ok (start_time, Qmin max_length (end_time - start_time))
  | _, _ => Err ValueError
  end.

(** ------------------------------------------------------------------ *)
(** detsim/s2_waveforms_c.pyx *)
(** a[i] += v *)
Definition add_at (i : nat) (v : Q) (l : list Q) : list Q := upd i (nth i l 0 + v) l.

(** s2_waveforms_c.pyx 12-26: spread_histogram *)
Definition spread_histogram (histogram : list Q) (nsmear_left nsmear_right : nat) : list Q :=
  let nsamples := (nsmear_left + nsmear_right)%nat in
  let l := length histogram in
  let spreaded := fold_left (fun sp h =>
      if Qltb 0 (nth h histogram 0) then
        let v := nth h histogram 0 / qn nsamples in
        let aux := (h - nsmear_left)%nat in
        fold_left (fun sp i => add_at (aux + i) v sp) (seq 0 nsamples) sp
      else sp) (seq nsmear_left (l - nsmear_left)) (repeat 0 (l + nsamples - 1)) in
  firstn l spreaded.

(** light_tables_c: the interface of a light table. [values x y s] is None for a null pointer *)
Record light_table := { num_sensors : nat; zbins : list Q; el_gap_width : Q; values : Q -> Q -> nat -> option (list Q) }.

(** an index of an array of n elements: negative indices count from the end (Cython wraparound), others raise IndexError *)
Definition wrap (n : nat) (i : Z) : result nat :=
  if ((0 <=? i) && (i <? Z.of_nat n))%Z then Ok (Z.to_nat i)
  else if ((- Z.of_nat n <=? i) && (i <? 0))%Z then Ok (Z.to_nat (Z.of_nat n + i)) else Err IndexError.

(** fold that stops at an exception *)
Definition rfold {A S} (f : S -> A -> result S) (l : list A) (s : S) : result S := fold_left (fun r a => rbind r (fun s => f s a)) l (Ok s).

(** s2_waveforms_c.pyx 29-112: create_wfs. The arrays of the electrons have the same length; a table row has one factor per z partition
    (a shorter one would be read beyond its end) *)
Definition create_wfs (els : list electron) (lt : light_table) (el_dv sns_time_bin buffer_length tmin : Q) : result (list (list Q)) :=
  if Qeqb sns_time_bin 0 then Err ZeroDivisionError
  else
  let num_bins := Qceiling (buffer_length / sns_time_bin) in
  if (num_bins <? 0)%Z then Err ValueError
  else if (length (zbins lt) =? 0)%nat || Qeqb el_dv 0 then Err ZeroDivisionError
  else
  let nb := Z.to_nat num_bins in
  let zs_bs := el_gap_width lt / qn (length (zbins lt)) in
  let time_bs_sns := zs_bs / el_dv / sns_time_bin in
  let max_time_sns := el_gap_width lt / el_dv / sns_time_bin in
  if Qeqb time_bs_sns 0 then Err ZeroDivisionError
  else
  let el_times := arange (time_bs_sns / 2) max_time_sns time_bs_sns in
  if (length el_times =? 0)%nat then Err IndexError
  else
  rbind (rfold (fun wfs e =>
    let t_p := (et e - tmin) / sns_time_bin in
    rfold (fun wfs s =>
      match values lt (ex e) (ey e) s with
      | None => Ok wfs
      | Some lt_factors =>
          rfold (fun wfs k =>
            let tindx := Qfloor (t_p + nth k el_times 0) in
            if (num_bins <=? tindx)%Z then Ok wfs
            else rbind (wrap nb tindx) (fun j =>
                 Ok (upd s (add_at j (nth k lt_factors 0 * inject_Z (eph e)) (nth s wfs [])) wfs))) (seq 0 (length el_times)) wfs
      end) (seq 0 (num_sensors lt)) wfs) els (repeat (repeat 0 nb) (num_sensors lt))) (fun wfs =>
  let nsmear := Qceiling time_bs_sns in
  if (1 <? nsmear)%Z then
    let nsmear_l := (nsmear / 2)%Z in
    let nsmear_r := (nsmear - nsmear_l)%Z in
    Ok (map (fun wf => spread_histogram wf (Z.to_nat nsmear_l) (Z.to_nat nsmear_r)) wfs)
  else Ok wfs).
