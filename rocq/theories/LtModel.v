(** Model of the light tables: detsim/light_tables.py, detsim/light_tables_c.pyx and core/core_functions.py 309-339.
    Exact arithmetic; the square roots are compared through the squares. *)
From Verif Require Import Base Arrays PeaksModel BuffersModel WfmModel.
From Coq Require Import Qround.
Local Open Scope Q_scope.

(** light_tables.py 41-57: read_lighttable: the values of the user are taken if they are not None (or zero) and differ from those of the file *)
Definition configured (user : option Q) (file : Q) : Q :=
  match user with Some u => if negb (Qeqb u 0) && negb (Qeqb u file) then u else file | None => file end.

(** np.unique *)
Fixpoint no_repeats (l : list Q) : list Q :=
  match l with
  | x :: (y :: _) as l' => if Qeqb x y then no_repeats l' else x :: no_repeats l'
  | _ => l
  end.
(** with light_tables.py 41-57: read_lighttable *)
Definition np_unique (l : list Q) : list Q := no_repeats (sortQ l).

(** core_functions.py 309-339: binedges_from_bincenters *)
Fixpoint middles (l : list Q) : list Q :=
  match l with
  | x :: (y :: _) as l' => (y + x) / 2 :: middles l'
  | _ => []
  end.
(** for core_functions.py 309-339: binedges_from_bincenters *)
Fixpoint increasing (l : list Q) : bool :=
  match l with
  | x :: (y :: _) as l' => Qltb x y && increasing l'
  | _ => true
  end.
(** core_functions.py 309-339: binedges_from_bincenters *)
Definition binedges_from_bincenters (c : list Q) (range : option (Q * Q)) : result (list Q) :=
  if negb (increasing c) then Err ValueError
  else match c with
       | [] => Err IndexError
       | c0 :: _ =>
         let cn := last c c0 in
         match range with
         | None => Ok (c0 :: middles c ++ [cn])
         | Some (lo, hi) =>
           if negb (Qltb lo hi) then Err ValueError
           else if Qltb c0 lo || Qltb hi cn then Err ValueError
           else Ok (lo :: middles c ++ [hi])
         end
       end.

(** pd.cut(x, edges, include_lowest = True, labels = centers): None is NaN *)
Definition cut (edges centers : list Q) (x : Q) : option Q :=
  let ids := if Qeqb x (nth 0 edges 0) then 1%nat else length (filter (fun e => Qltb e x) edges) in
  if Nat.eqb ids 0 || Nat.eqb ids (length edges) then None else Some (nth (ids - 1) centers 0).

(** a row of the table: position and value of each sensor *)
Definition lt_row : Type := Q * Q * Q * list Q.
(** for light_tables_c.pyx 110-130 *)
Definition same_position (p q : Q * Q * Q) : bool := let '(a, b, c) := p in let '(d, e, f) := q in Qeqb a d && Qeqb b e && Qeqb c f.
(** for light_tables_c.pyx 110-130 *)
Fixpoint repeated (l : list (Q * Q * Q)) : bool :=
  match l with [] => false | p :: l' => existsb (same_position p) l' || repeated l' end.
(** lt.reindex(indices, fill_value = 0): a table with repeated positions is refused, except by an empty list *)
Definition reindex (table : list lt_row) (nsensors : nat) (indices : list (option Q * option Q * option Q)) : result (list (list Q)) :=
  if repeated (map fst table) && negb (Nat.eqb (length indices) 0) then Err ValueError
  else Ok (map (fun i => match i with
                         | (Some x, Some y, Some z) => match find (fun r => same_position (fst r) (x, y, z)) table with Some r => snd r | None => repeat 0 nsensors end
                         | _ => repeat 0 nsensors
                         end) indices).

(** light_tables.py 85-91: values of the selected positions, zero for the others *)
Fixpoint put_selected (sel : list bool) (found : list (list Q)) (zero : list Q) : list (list Q) :=
  match sel with
  | [] => []
  | false :: sel => zero :: put_selected sel found zero
  | true :: sel => match found with v :: found => v :: put_selected sel found zero | [] => zero :: put_selected sel [] zero end
  end.
(** 60-116: create_lighttable_function, applied to positions. A table without z has z = 1 in every row, and the function is called with zs = [1].
    [act_r] is the radius of [configured]. An empty table: IndexError from xcenters[0]. *)
Definition lighttable_function (table : list lt_row) (nsensors : nat) (act_r : Q) : result (list Q -> list Q -> list Q -> result (list (list Q))) :=
  let xcenters := np_unique (map (fun r => fst (fst (fst r))) table) in
  let ycenters := np_unique (map (fun r => snd (fst (fst r))) table) in
  let zcenters := np_unique (map (fun r => snd (fst r)) table) in
  match xcenters, ycenters with
  | x0 :: _, y0 :: _ =>
    rbind (binedges_from_bincenters xcenters (Some (Qmin x0 (- act_r), Qmax (last xcenters x0) act_r))) (fun xbins =>
    rbind (binedges_from_bincenters ycenters (Some (Qmin y0 (- act_r), Qmax (last ycenters y0) act_r))) (fun ybins =>
    rbind (binedges_from_bincenters zcenters None) (fun zbins =>
    Ok (fun xs ys zs =>
      let zs := match zs with [z] => repeat z (length xs) | _ => zs end in
      if negb (Nat.eqb (length xs) (length ys) && Nat.eqb (length ys) (length zs)) then Err (Other 50)
      else
        let points := combine (combine xs ys) zs in
        let inside := fun p => let '(x, y, z) := p in
          Qle_bool 0 act_r && Qle_bool (x * x + y * y) (act_r * act_r) && Qle_bool (nth 0 zbins 0) z && Qle_bool z (last zbins 0) in
        rbind (reindex table nsensors (map (fun p => let '(x, y, z) := p in (cut xbins xcenters x, cut ybins ycenters y, cut zbins zcenters z)) (filter inside points))) (fun found =>
        Ok (put_selected (map inside points) found (repeat 0 nsensors)))))))
  | _, _ => Err IndexError
  end.

(** light_tables_c.pyx 62-66: get_el_bins *)
Definition el_bins (pitch gap : Q) : list Q := arange (pitch / 2) gap pitch.

(** light_tables_c.pyx 110-130: LT_SiPM.__init__; the table has a distance and a value for each partition of the gap in each row *)
Record lt_sipm := { ls_zbins : list Q; ls_values : list (list Q); ls_bin : Q; ls_max : Q; ls_active : Q; ls_sensors : list (Q * Q) }.
(** with light_tables_c.pyx 110-130 *)
Definition make_lt_sipm (table : list (Q * list Q)) (pitch_z el_gap active_r : Q) (sensors : list (Q * Q)) (ratio : Q) : result lt_sipm :=
  if Qle_bool ratio 0 then Err ValueError
  else let zbins := el_bins pitch_z el_gap in
       match table with
       | (d0, _) :: (d1, _) :: _ =>
         let bin := d1 - d0 in
         if Qeqb bin 0 then Err ZeroDivisionError
         else Ok {| ls_zbins := zbins;
                    ls_values := map (fun r => map (fun v => v / qn (length zbins) * ratio) (snd r)) table;
                    ls_bin := bin;
                    ls_max := fold_left Qmax (map fst table) d0;
                    ls_active := active_r;
                    ls_sensors := sensors |}
       | _ => Err IndexError
       end.
(** 132-156 and 47-59: get_values. The result is a pointer to the row: as many values as partitions are read from there on, in the rows that follow
    if the row has less. Reading after the end of the table is [NotModelled]. *)
Definition memory (values : list (list Q)) (row n : nat) : result (list Q) :=
  match nth_error values row with
  | None => Err IndexError
  | Some _ => let tail := concat (skipn row values) in if Nat.ltb (length tail) n then Err NotModelled else Ok (firstn n tail)
  end.
(** with light_tables_c.pyx 110-130 *)
Definition sipm_values (lt : lt_sipm) (x y : Q) (sensor : nat) : result (list Q) :=
  let zero := repeat 0 (length (ls_zbins lt)) in
  match nth_error (ls_sensors lt) sensor with
  | None => Ok zero
  | Some (xs, ys) =>
    let d2 := (x - xs) * (x - xs) + (y - ys) * (y - ys) in
    if Qltb (ls_max lt * ls_max lt) d2 then Ok zero
    else if Qle_bool (ls_active lt * ls_active lt) (x * x + y * y) then Ok zero
    else if Qltb (ls_bin lt) 0 then Err IndexError (* a negative bin *)
    else memory (ls_values lt) (Z.to_nat (Z.sqrt (Qfloor (d2 / (ls_bin lt * ls_bin lt))))) (length (ls_zbins lt))
  end.

(** C's round: halves away from zero *)
Definition cround (q : Q) : Z := if Qle_bool 0 q then Qfloor (q + (1 # 2)) else Qceiling (q - (1 # 2)).

Section PMT.
(** griddata(points, values, p, method = 'nearest'): position in the table of a point nearest to p *)
Variable nearest : list (Q * Q) -> Q * Q -> nat.

(** 239-259: __extend_lt_bounds: the axes *)
Definition low_end (active lowest bin : Q) : Q := lowest - inject_Z (Qceiling ((active - Qabs lowest) / bin)) * bin.
(** for light_tables_c.pyx 110-130 *)
Definition high_end (active highest bin : Q) : Q := highest + inject_Z (Qceiling ((active - Qabs highest) / bin)) * bin.
(** for light_tables_c.pyx 110-130 *)
Definition minimum (l : list Q) : Q := match l with [] => 0 | a :: l => fold_left Qmin l a end.
(** for light_tables_c.pyx 110-130 *)
Definition maximum (l : list Q) : Q := match l with [] => 0 | a :: l => fold_left Qmax l a end.
(** for light_tables_c.pyx 110-130 *)
Definition axis (active bin : Q) (l : list Q) : list Q := arange (low_end active (minimum l) bin) (high_end active (maximum l) bin + bin / 2) bin.

(** 212-237: LT_PMT.__init__ ; a row of the table: position in the plane and value of each PMT. np.meshgrid(x, y) has a row for each y;
    the table is interpolated at (yy, xx). *)
Record lt_pmt := { lp_values : list (list (list Q)); lp_xmin : Q; lp_ymin : Q; lp_binx : Q; lp_biny : Q; lp_active : Q; lp_sensors : nat; lp_zbins : list Q }.
(** with light_tables_c.pyx 110-130 *)
Definition make_lt_pmt (table : list (Q * Q * list Q)) (nsensors : nat) (bin_x bin_y el_gap active_r ratio : Q) : result lt_pmt :=
  if Qle_bool ratio 0 then Err ValueError
  else match table with
  | [] => Err ValueError
  | _ =>
    if Qeqb bin_x 0 || Qeqb bin_y 0 then Err ZeroDivisionError
    else
      let xs := map (fun r => fst (fst r)) table in
      let ys := map (fun r => snd (fst r)) table in
      let x := axis active_r bin_x xs in
      let y := axis active_r bin_y ys in
      Ok {| lp_values := map (fun yy => map (fun xx => map (fun s => nth s (snd (nth (nearest (map fst table) (yy, xx)) table (0, 0, []))) 0 * ratio) (seq 0 nsensors)) x) y;
            lp_xmin := low_end active_r (minimum xs) bin_x;
            lp_ymin := low_end active_r (minimum ys) bin_y;
            lp_binx := bin_x; lp_biny := bin_y; lp_active := active_r; lp_sensors := nsensors;
            lp_zbins := el_bins el_gap el_gap |}
  end.
(** 261-273 and 47-59: get_values: the single value is repeated for each partition of the gap *)
Definition pmt_values (lt : lt_pmt) (x y : Q) (sensor : nat) : result (list Q) :=
  let n := length (lp_zbins lt) in
  if Qle_bool (lp_active lt * lp_active lt) (x * x + y * y) then Ok (repeat 0 n)
  else if Nat.leb (lp_sensors lt) sensor then Ok (repeat 0 n)
  else let i := cround ((x - lp_xmin lt) / lp_binx lt) in
       let j := cround ((y - lp_ymin lt) / lp_biny lt) in
       if (i <? 0)%Z || (j <? 0)%Z then Err IndexError
       else match nth_error (lp_values lt) (Z.to_nat i) with
            | None => Err IndexError
            | Some row => match nth_error row (Z.to_nat j) with
                          | None => Err IndexError
                          | Some vs => Ok (repeat (nth sensor vs 0) n)
                          end
            end.
End PMT.
