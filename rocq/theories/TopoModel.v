(** Model of the tracks and of the summary of an event in cities/components.py *)
From Verif Require Import Base PeaksModel Arrays DbModel CorrModel PaolinaModel.
Local Open Scope Q_scope.

(** a row of the hits: the columns X, Y, Z, Ec, Ep and the other ones. [None] is NaN: the hit is outside of the correction map *)
Record thit := { tX : Q; tY : Q; tZ : Q; tE : Q; tEc : val; tEp : val; tother : nat }.
(** a row of the hits written: the row of the input it comes from, and the columns that may have changed *)
Record ohit := { o_row : nat; o_pos : pos3; o_ec : val; o_ep : val; o_track : Z }.

(** a row of the table of tracks. The columns of the radius (minimum, maximum and average of sqrt(x^2 + y^2)) are not modelled *)
Record track_row := { k_event : Z; k_id : nat; k_energy : Q; k_length : Q; k_nvox : nat; k_nhits : nat; k_ntracks : nat;
  k_min : pos3; k_max : pos3; k_ave : pos3; k_ext1 : pos3; k_ext2 : pos3; k_blob1 : pos3; k_blob2 : pos3;
  k_eblob1 : Q; k_eblob2 : Q; k_overlap : Q; k_size : pos3 }.

(** types/symbols.py HitEnergy and components.py 1438-1442: Efield_copier *)
Inductive hit_energy := HE | HEc.
(** components.py 1439-1441: copy_Efield *)
Definition copy_Efield (t : hit_energy) (hits : list thit) : list thit :=
  map (fun h => let e := match t with HE => Some (tE h) | HEc => tEc h end in
                {| tX := tX h; tY := tY h; tZ := tZ h; tE := tE h; tEc := e; tEp := e; tother := tother h |}) hits.

(** pandas: minimum and maximum of a column *)
Definition min_col (f : phit -> Q) (l : list phit) : Q := match l with [] => 0 | h :: l => fold_left (fun m g => Qmin m (f g)) l (f h) end.
(** pandas: the maximum *)
Definition max_col (f : phit -> Q) (l : list phit) : Q := match l with [] => 0 | h :: l => fold_left (fun m g => Qmax m (f g)) l (f h) end.
(** with components.py 1438-1442: Efield_copier *)
Definition cols3 (F : (phit -> Q) -> Q) : pos3 := (F px, F py, F pz).

(** paolina_functions.py 420-421: get_track_energy *)
Definition track_hits (t : list voxel) : list phit := flat_map vhits t.
(** with paolina_functions.py 420-421: get_track_energy *)
Definition track_energy (t : list voxel) : Q := sumF (fun v => sumF pe (vhits v)) t.

Section Tracks.
  (** numpy.round(_, 5); the shortest paths of a track; the norm of the size of a voxel *)
  Variable round5 : Q -> Q.
  Variable paths : list voxel -> list voxel * (voxel -> voxel -> Q).
  Variable norm : pos3 -> Q.
  Variables (vox_size : Q * Q * Q) (strict : bool) (energy_threshold : Q) (min_voxels : nat) (blob_radius : Q) (scan_radius : option Q) (max_num_hits : Z).

  Section Event.
    Variable event : Z.
    Variable hits : list thit.
    (** for paolina_functions.py 420-421: get_track_energy *)
    Definition row (i : nat) : thit := nth i hits {| tX := 0; tY := 0; tZ := 0; tE := 0; tEc := None; tEp := None; tother := 0 |}.
    (** 1569-1574: the rounded hits, in the map (with an energy) and out of the map *)
    Definition hits_in_map : list phit :=
      concat (mapi (fun i h => match tEp h with Some e => [{| px := round5 (tX h); py := round5 (tY h); pz := round5 (tZ h); pe := e; pother := i |}] | None => [] end) hits).
    (** with paolina_functions.py 420-421: get_track_energy *)
    Definition hits_out_of_map : list ohit :=
      concat (mapi (fun i h => match tEp h with None => [{| o_row := i; o_pos := (round5 (tX h), round5 (tY h), round5 (tZ h)); o_ec := tEc h; o_ep := None; o_track := -1 |}] | Some _ => [] end) hits).
    (** with paolina_functions.py 420-421: get_track_energy *)
    Definition as_row (track : Z) (e : phit -> val) (h : phit) : ohit :=
      {| o_row := pother h; o_pos := hpos h; o_ec := tEc (row (pother h)); o_ep := e h; o_track := track |}.

    (** 1610-1611: merge on all the columns; two rows that are equal in all of them match each other *)
    Definition val_eqb (a b : val) : bool := match a, b with Some a, Some b => Qeqb a b | None, None => true | _, _ => false end.
    (** for paolina_functions.py 420-421: get_track_energy *)
    Definition same_columns (h g : phit) : bool :=
      Qeqb (px h) (px g) && Qeqb (py h) (py g) && Qeqb (pz h) (pz g) && Qeqb (pe h) (pe g) &&
      Qeqb (tE (row (pother h))) (tE (row (pother g))) && val_eqb (tEc (row (pother h))) (tEc (row (pother g))) &&
      (tother (row (pother h)) =? tother (row (pother g)))%nat.
    (** with paolina_functions.py 420-421: get_track_energy *)
    Definition overlap (l m : list phit) : Q := sumF pe (flat_map (fun h => filter (same_columns h) m) l).

    (** the distances by the identities of the voxels *)
    Definition by_id (t : list voxel) (d : voxel -> voxel -> Q) (i j : nat) : Q :=
      match find (fun v => vid v =? i)%nat t, find (fun v => vid v =? j)%nat t with Some u, Some v => d u v | _, _ => 0 end.
    (** with paolina_functions.py 420-421: get_track_energy *)
    Definition vsize (v : voxel) : pos3 := (szx v, szy v, szz v).

    (** 1591-1621: the row of a track. The voxels have all the same size *)
    Definition track_info (size : pos3) (ntracks c : nat) (t : list voxel) : result track_row :=
      let hs := track_hits t in
      if Qeqb (sumF pe hs) 0 then Err ZeroDivisionError else
      rbind (find_extrema_and_length (fst (paths t)) (snd (paths t))) (fun r =>
      match fst r with
      | None => Err AttributeError
      | Some (a, b) =>
        rbind (blob_energies_hits_and_centres t (by_id t (snd (paths t))) (norm size) blob_radius scan_radius a b) (fun bb =>
        Ok {| k_event := event; k_id := c; k_energy := track_energy t; k_length := snd r; k_nvox := length t;
              k_nhits := sumN (map (fun v => length (vhits v)) t); k_ntracks := ntracks;
              k_min := cols3 (fun f => min_col f hs); k_max := cols3 (fun f => max_col f hs); k_ave := cols3 (fun f => wmean f hs);
              k_ext1 := vpos a; k_ext2 := vpos b; k_blob1 := bcentre (fst bb); k_blob2 := bcentre (snd bb);
              k_eblob1 := bE (fst bb); k_eblob2 := bE (snd bb); k_overlap := overlap (bhits (fst bb)) (bhits (snd bb)); k_size := size |})
      end).

    (** 1561-1632: create_extract_track_blob_info; the iterations of drop_end_point_voxels end before there are as many as voxels *)
    Definition create_extract_track_blob_info : result (list track_row * list ohit * bool) :=
      match hits with
      | [] => Err IndexError
      | _ =>
        if (max_num_hits <? Z.of_nat (length hits))%Z
        then Ok ([], mapi (fun i h => {| o_row := i; o_pos := (tX h, tY h, tZ h); o_ec := tEc h; o_ep := tEp h; o_track := -1 |}) hits, true)
        else
          let flag := existsb (fun h => match tEp h with None => true | Some _ => false end) hits in
          if negb (existsb (fun h => Qltb 0 (pe h)) hits_in_map) then Ok ([], map (as_row (-1) (fun h => Some (pe h))) hits_in_map, flag) else
          rbind (voxelize_hits hits_in_map vox_size strict) (fun vs =>
          match drop_end_point_voxels paths energy_threshold min_voxels CORNER (S (length vs)) vs, vs with
          | Some r, v0 :: _ =>
            rbind r (fun md =>
            let '(mods, dropped) := md in
            let tracks := sort_by (fun a b => Qle_bool (track_energy b) (track_energy a)) (make_track_graphs CORNER mods) in
            rbind (rmap (fun ct => track_info (vsize v0) (length tracks) (fst ct) (snd ct)) (combine (seq 0 (length tracks)) tracks)) (fun rows =>
            Ok (rows,
                hits_out_of_map ++ map (as_row (-1) (fun _ => None)) (flat_map vhits dropped)
                ++ concat (mapi (fun c t => map (as_row (Z.of_nat c) (fun h => Some (pe h))) (track_hits t)) tracks), flag)))
          | _, _ => Err NotModelled
          end)
      end.
  End Event.
End Tracks.

(** components.py 1637-1638: sort_hits *)
Definition lex_le (a b : pos3) : bool :=
  let '(x, y, z) := a in let '(x', y', z') := b in
  Qltb z z' || (Qeqb z z' && (Qltb x x' || (Qeqb x x' && Qle_bool y y'))).
(** components.py 1637-1638: sort_hits *)
Definition sort_hits (l : list ohit) : list ohit := sort_by (fun a b => lex_le (o_pos a) (o_pos b)) l.

(** components.py 1446-1494: make_event_summary, without the columns of the radius and with S2qc = -1 left out. [None] is NaN *)
Record summary := { s_event : Z; s_ec : Q; s_ntrks : nat; s_nhits : nat; s_ave : val * val * val; s_min : pos3; s_max : pos3; s_oom : bool }.
(** for components.py 1446-1494: make_event_summary *)
Definition xof (o : ohit) : Q := fst (fst (o_pos o)).
(** for components.py 1446-1494: make_event_summary *)
Definition yof (o : ohit) : Q := snd (fst (o_pos o)).
(** for components.py 1446-1494: make_event_summary *)
Definition zof (o : ohit) : Q := snd (o_pos o).
(** for components.py 1446-1494: make_event_summary *)
Definition min_of_col (f : ohit -> Q) (l : list ohit) : Q := match l with [] => 0 | h :: l => fold_left (fun m g => Qmin m (f g)) l (f h) end.
(** for components.py 1446-1494: make_event_summary *)
Definition max_of_col (f : ohit -> Q) (l : list ohit) : Q := match l with [] => 0 | h :: l => fold_left (fun m g => Qmax m (f g)) l (f h) end.
(** for components.py 1446-1494: make_event_summary *)
Definition or0 (v : val) : Q := match v with Some q => q | None => 0 end.
(** numpy.average with weights: NaN if a weight is NaN, an exception if they add up to 0 *)
Definition average (f : ohit -> Q) (l : list ohit) : result val :=
  if existsb (fun o => match o_ec o with None => true | Some _ => false end) l then Ok None
  else let w := sumF (fun o => or0 (o_ec o)) l in
       if Qeqb w 0 then Err ZeroDivisionError else Ok (Some (sumF (fun o => or0 (o_ec o) * f o) l / w)).
(** components.py 1446-1494: make_event_summary *)
Definition make_event_summary (event : Z) (rows : list track_row) (hits : list ohit) (out_of_map : bool) : result (list summary) :=
  match hits with
  | [] => Ok []
  | _ =>
    rbind (average xof hits) (fun x => rbind (average yof hits) (fun y => rbind (average zof hits) (fun z =>
    Ok [{| s_event := event; s_ec := sumF (fun o => or0 (o_ec o)) hits; s_ntrks := length rows; s_nhits := length hits; s_ave := (x, y, z);
           s_min := (min_of_col xof hits, min_of_col yof hits, min_of_col zof hits);
           s_max := (max_of_col xof hits, max_of_col yof hits, max_of_col zof hits); s_oom := out_of_map |}])))
  end.

(** components.py 1641-1704: compute_and_write_tracks_info for one event: what is written to the table of the filter on the number of hits,
    the summary, the filter of the topology, the hits and the tracks *)
Record written := { w_hits_passed : bool; w_summary : list summary; w_topology : list bool; w_hits : list ohit; w_tracks : list track_row }.
Section Write.
  Variable round5 : Q -> Q.
  Variable paths : list voxel -> list voxel * (voxel -> voxel -> Q).
  Variable norm : pos3 -> Q.
  Variables (vox_size : Q * Q * Q) (strict : bool) (energy_threshold : Q) (min_voxels : nat) (blob_radius : Q) (scan_radius : option Q) (max_num_hits : Z).
  (** with components.py 1641-1704: compute_and_write_tracks_info *)
  Definition write_tracks_info (t : hit_energy) (event : Z) (hits : list thit) : result written :=
    match hits with
    | [] => Ok {| w_hits_passed := false; w_summary := []; w_topology := []; w_hits := []; w_tracks := [] |}
    | _ =>
      rbind (create_extract_track_blob_info round5 paths norm vox_size strict energy_threshold min_voxels blob_radius scan_radius max_num_hits event (copy_Efield t hits)) (fun r =>
      let '(rows, out, flag) := r in
      let out := sort_hits out in
      rbind (make_event_summary event rows out flag) (fun s =>
      Ok {| w_hits_passed := true; w_summary := s; w_topology := [negb (length rows =? 0)%nat]; w_hits := out; w_tracks := rows |}))
    end.
End Write.
