(** Model of invisible_cities/reco/paolina_functions.py. Coordinates and energies are rationals.
    Lengths involving square roots are compared through their squares. *)
From Verif Require Import Base PeaksModel BuffersModel Arrays.
Local Open Scope Q_scope.

(** a hit: the columns X, Y, Z, the energy column in use and the other columns, which are carried along *)
Record phit := { px : Q; py : Q; pz : Q; pe : Q; pother : nat }.

(** evm/event_model.py 94-109: Voxel. [vid] is the identity of the Python object. An empty
    [vhits] is an empty data frame. *)
Record voxel := { vid : nat; vx : Q; vy : Q; vz : Q; vE : Q; szx : Q; szy : Q; szz : Q; vhits : list phit }.

(** for paolina_functions.py 45-107: voxelize_hits *)
Definition NoHits : pyexc := Other 20.
(** for paolina_functions.py 154-166: find_extrema_and_length *)
Definition NoVoxels : pyexc := Other 21.

(** for paolina_functions.py 45-107: voxelize_hits *)
Definition qnat (n : nat) : Q := inject_Z (Z.of_nat n).

(** ** voxelize_hits: one axis *)
Record axis := { an : nat; alo : Q; ahi : Q }.

(** paolina_functions.py 55-73: the number of bins and the range of one axis (the code
    works on the three axes at once). The coordinates are not empty. *)
Definition vox_eps : Q := 3 # 1000000000000.
(** for paolina_functions.py 45-107: voxelize_hits *)
Definition make_axis (dim : Q) (strict : bool) (coords : list Q) : axis :=
  let mn := match coords with [] => 0 | a :: l => fold_left Qmin l a end in
  let mx := match coords with [] => 0 | a :: l => fold_left Qmax l a end in
  let centre := (mx + mn) / 2 in
  let size := mx - mn in
  let n := Nat.max 1 (Z.to_nat (Qceiling (size / dim))) in
  let half := if strict then qnat n * dim / 2 else size / 2 in
  {| an := n; alo := centre - half - vox_eps; ahi := centre + half + vox_eps |}.

(** numpy.linspace inside numpy.histogramdd *)
Definition edge (a : axis) (i : nat) : Q := alo a + qnat i * ((ahi a - alo a) / qnat (an a)).
(** with paolina_functions.py 55-73 *)
Definition edges (a : axis) : list Q := map (edge a) (seq 0 (S (an a))).

(** numpy.searchsorted(edges, x, side="right") and numpy.digitize(x, edges, right=False) *)
Definition n_edges_le (a : axis) (x : Q) : nat := count (fun e => Qle_bool e x) (edges a).

(** the bin of numpy.histogramdd: intervals [,) but the last one [,]; None for outliers *)
Definition hist_bin (a : axis) (x : Q) : option nat :=
  let k := n_edges_le a x in
  let k := if Qeqb x (edge a (an a)) then (k - 1)%nat else k in
  if ((1 <=? k) && (k <=? an a))%nat then Some (k - 1)%nat else None.

(** paolina_functions.py 92-94: hits_indices *)
Definition digit_bin (a : axis) (x : Q) : nat := Nat.min (n_edges_le a x - 1) (an a - 1).

(** for paolina_functions.py 92-94 *)
Definition axes : Type := axis * axis * axis.
(** for paolina_functions.py 96-105 *)
Definition index : Type := nat * nat * nat.
(** for paolina_functions.py 96-105 *)
Definition index_eqb (i j : index) : bool :=
  let '(a, b, c) := i in let '(a', b', c') := j in ((a =? a') && (b =? b') && (c =? c'))%nat.
(** with paolina_functions.py 92-94 *)
Definition hist_index (ax : axes) (h : phit) : option index :=
  let '(a, b, c) := ax in
  match hist_bin a (px h), hist_bin b (py h), hist_bin c (pz h) with
  | Some i, Some j, Some k => Some (i, j, k)
  | _, _, _ => None
  end.
(** for paolina_functions.py 96-105 *)
Definition digit_index (ax : axes) (h : phit) : index :=
  let '(a, b, c) := ax in (digit_bin a (px h), digit_bin b (py h), digit_bin c (pz h)).

(** numpy.histogramdd with weights *)
Definition hist_content (ax : axes) (hits : list phit) (i : index) : Q :=
  sumF pe (filter (fun h => match hist_index ax h with Some j => index_eqb i j | None => false end) hits).

(** the positions of the histogram in the order of numpy.nonzero *)
Definition grid (ax : axes) : list index :=
  let '(a, b, c) := ax in list_prod (list_prod (seq 0 (an a)) (seq 0 (an b))) (seq 0 (an c)).

(** for paolina_functions.py 96-105 *)
Definition bin_centre (a : axis) (i : nat) : Q := (edge a (S i) + edge a i) / 2.
(** for paolina_functions.py 96-105 *)
Definition bin_size (a : axis) : Q := edge a 1 - edge a 0.

(** paolina_functions.py 96-105 *)
Definition make_voxel (ax : axes) (hits : list phit) (n : nat) (i : index) : voxel :=
  let '(a, b, c) := ax in let '(x, y, z) := i in
  {| vid := n; vx := bin_centre a x; vy := bin_centre b y; vz := bin_centre c z;
     vE := hist_content ax hits i;
     szx := bin_size a; szy := bin_size b; szz := bin_size c;
     vhits := filter (fun h => index_eqb (digit_index ax h) i) hits |}.

(** for paolina_functions.py 45-107: voxelize_hits *)
Definition make_axes (dims : Q * Q * Q) (strict : bool) (hits : list phit) : axes :=
  let '(dx, dy, dz) := dims in
  (make_axis dx strict (map px hits), make_axis dy strict (map py hits), make_axis dz strict (map pz hits)).

(** paolina_functions.py 45-107: voxelize_hits *)
Definition voxelize_hits (hits : list phit) (dims : Q * Q * Q) (strict : bool) : result (list voxel) :=
  match hits with
  | [] => Err NoHits
  | _ =>
    let ax := make_axes dims strict hits in
    Ok (mapi (make_voxel ax hits) (filter (fun i => negb (Qeqb (hist_content ax hits i) 0)) (grid ax)))
  end.

(** ** tracks *)
(** types/symbols.py 15-18: Contiguity *)
Inductive contiguity := FACE | EDGE | CORNER.
(** for paolina_functions.py 110-111: neighbours *)
Definition cvalue (c : contiguity) : Q := match c with FACE => 12 # 10 | EDGE => 15 # 10 | CORNER => 18 # 10 end.

(** paolina_functions.py 110-111: neighbours *)
Definition sq (x : Q) : Q := x * x.
(** paolina_functions.py 110-111: neighbours *)
Definition neighbours (c : contiguity) (a b : voxel) : bool :=
  Qltb (sq ((vx a - vx b) / szx a) + sq ((vy a - vy b) / szy a) + sq ((vz a - vz b) / szz a)) (sq (cvalue c)).

(** paolina_functions.py 114-132: make_track_graphs. networkx.connected_components is a
    library function; the components are computed here by adding the voxels one by one, each
    one joining all the components that have an edge to it. Edges are added for the pairs of
    itertools.combinations, that is from earlier to later voxels. *)
Definition touches (c : contiguity) (v : voxel) (comp : list voxel) : bool := existsb (fun u => neighbours c u v) comp.
(** for paolina_functions.py 114-128: make_track_graphs *)
Definition add_voxel (c : contiguity) (comps : list (list voxel)) (v : voxel) : list (list voxel) :=
  filter (fun k => negb (touches c v k)) comps ++ [concat (filter (touches c v) comps) ++ [v]].
(** paolina_functions.py 114-128: make_track_graphs *)
Definition make_track_graphs (c : contiguity) (vs : list voxel) : list (list voxel) :=
  fold_left (add_voxel c) vs [].

(** paolina_functions.py 154-166: find_extrema_and_length, over the keys of the dictionary of
    distances and the distances themselves. A result of None stands for (None, None). *)
Fixpoint combinations2 {A} (l : list A) : list (A * A) :=
  match l with [] => [] | a :: l => map (pair a) l ++ combinations2 l end.
(** paolina_functions.py 154-166: find_extrema_and_length *)
Definition find_extrema_and_length {V} (keys : list V) (dist : V -> V -> Q) : result (option (V * V) * Q) :=
  match keys with
  | [] => Err NoVoxels
  | [v] => Ok (Some (v, v), 0)
  | _ => Ok (fold_left (fun best p => if Qltb (snd best) (dist (fst p) (snd p))
                                      then (Some p, dist (fst p) (snd p)) else best)
                       (combinations2 keys) (None, 0))
  end.

(** ** blobs *)
Definition pos3 : Type := Q * Q * Q.
(** for paolina_functions.py 194-204: blob_centre *)
Definition vpos (v : voxel) : pos3 := (vx v, vy v, vz v).
(** for paolina_functions.py 207-227: hits_in_blob *)
Definition hpos (h : phit) : pos3 := (px h, py h, pz h).
(** for paolina_functions.py 207-227: hits_in_blob *)
Definition d3 (p q : pos3) : Q :=
  let '(a, b, c) := p in let '(a', b', c') := q in sq (a - a') + sq (b - b') + sq (c - c').

(** paolina_functions.py 194-204: blob_centre *)
Definition wmean (x : phit -> Q) (l : list phit) : Q := sumF (fun h => pe h * x h) l / sumF pe l.
(** paolina_functions.py 194-204: blob_centre *)
Definition blob_centre (v : voxel) : pos3 :=
  if Qeqb (sumF pe (vhits v)) 0 then vpos v
  else (wmean px (vhits v), wmean py (vhits v), wmean pz (vhits v)).

Section Blobs.
  (** [dist] is the output of networkx.all_pairs_dijkstra_path_length on the track (140-150) and
      [diag] the diagonal of the voxels, numpy.linalg.norm(extreme.size) *)
  Variables (nodes : list voxel) (dist : nat -> nat -> Q) (diag : Q).

  (** paolina_functions.py 185-186: energy_of_voxels_within_radius *)
  Definition energy_within (v : voxel) (r : Q) : Q :=
    sumF vE (filter (fun u => Qltb (dist (vid v) (vid u)) r) nodes).

  (** norm(x) < r *)
  Definition norm_lt (d2 r : Q) : bool := Qltb 0 r && Qltb d2 (sq r).

  (** paolina_functions.py 207-227: hits_in_blob *)
  Definition hits_in_blob (r : Q) (ext : voxel) : result (list phit) :=
    let sel := filter (fun v => Qltb (dist (vid ext) (vid v)) (r + diag)) nodes in
    match sel with
    | [] => Err ValueError
    | _ => Ok (flat_map (fun v => filter (fun h => norm_lt (d3 (hpos h) (blob_centre ext)) r) (vhits v)) sel)
    end.

  (** paolina_functions.py 230-245: find_highest_encapsulating_node; Python's max returns the first maximum *)
  Definition find_highest_encapsulating_node (ext : voxel) (big small : Q) : result voxel :=
    match filter (fun n => Qle_bool (dist (vid ext) (vid n)) big) nodes with
    | [] => Err ValueError
    | n :: l => Ok (fold_left (fun best n => if Qltb (energy_within best small) (energy_within n small) then n else best) l n)
    end.

  (** for paolina_functions.py 248-284: blob_energies_hits_and_centres *)
  Record blob := { bE : Q; bhits : list phit; bcentre : pos3 }.

  (** paolina_functions.py 248-284: blob_energies_hits_and_centres, given the two extremes
      of the track; the tuple is returned as two blobs *)
  Definition blob_at (small : Q) (big : option Q) (ext : voxel) : result voxel :=
    match big with None => Ok ext | Some b => find_highest_encapsulating_node ext b small end.
  (** paolina_functions.py 248-284: blob_energies_hits_and_centres *)
  Definition blob_energies_hits_and_centres (small : Q) (big : option Q) (a b : voxel) : result (blob * blob) :=
    rbind (blob_at small big a) (fun a => rbind (blob_at small big b) (fun b =>
    rbind (hits_in_blob small a) (fun ha => rbind (hits_in_blob small b) (fun hb =>
    let some_hits := (0 <? length ha)%nat || (0 <? length hb)%nat in
    let Ea := if some_hits then sumF pe ha else energy_within a small in
    let Eb := if some_hits then sumF pe hb else energy_within b small in
    let ba := {| bE := Ea; bhits := ha; bcentre := blob_centre a |} in
    let bb := {| bE := Eb; bhits := hb; bcentre := blob_centre b |} in
    Ok (if Qltb Ea Eb then (bb, ba) else (ba, bb)))))).
End Blobs.

(** ** dropping end-point voxels *)
(** numpy.isclose(sqrt a, sqrt m) for a >= m >= 0, exactly: sqrt a <= atol + (1 + rtol) sqrt m *)
Definition atol : Q := 1 # 100000000.
(** for paolina_functions.py 343-387: drop_voxel *)
Definition rtol1 : Q := 1 + (1 # 100000).
(** for paolina_functions.py 343-387: drop_voxel *)
Definition isclose_sqrt (a m : Q) : bool :=
  let l := a - atol * atol - rtol1 * rtol1 * m in
  Qle_bool l 0 || Qle_bool (l * l) (4 * (atol * atol) * (rtol1 * rtol1) * m).

(** for paolina_functions.py 343-387: drop_voxel *)
Definition set_E (e : Q) (v : voxel) : voxel :=
  {| vid := vid v; vx := vx v; vy := vy v; vz := vz v; vE := e; szx := szx v; szy := szy v; szz := szz v; vhits := vhits v |}.
(** for paolina_functions.py 343-387: drop_voxel *)
Definition set_hits (l : list phit) (v : voxel) : voxel :=
  {| vid := vid v; vx := vx v; vy := vy v; vz := vz v; vE := vE v; szx := szx v; szy := szy v; szz := szz v; vhits := l |}.
(** for paolina_functions.py 343-387: drop_voxel *)
Definition set_pe (e : Q) (h : phit) : phit := {| px := px h; py := py h; pz := pz h; pe := e; pother := pother h |}.

(** for paolina_functions.py 343-387: drop_voxel *)
Definition min_of (l : list Q) : option Q := match l with [] => None | a :: l => Some (fold_left Qmin l a) end.

(** paolina_functions.py 343-387: drop_voxel; [cur] are the remaining voxels. The contiguity is
    always the default one because the caller does not pass it (line 413). Divisions by zero,
    after which the code carries on with nan or inf, are NotModelled. *)
Definition drop_voxel (cur : list voxel) (the : voxel) : result (list voxel) :=
  let nb v := neighbours CORNER the v in
  match vhits the with
  | [] =>
    match min_of (map (fun v => d3 (vpos the) (vpos v)) (filter nb cur)) with
    | None => Err ValueError
    | Some m =>
      let sel v := nb v && isclose_sqrt (d3 (vpos the) (vpos v)) m in
      let total := sumF vE (filter sel cur) in
      if Qeqb total 0 then Err NotModelled else
      Ok (map (fun v => if sel v then set_E (vE v + vE the / total * vE v) v else v) cur)
    end
  | _ =>
    if Qeqb (sumF pe (vhits the)) 0 then Err ZeroDivisionError else
    let bary := (wmean px (vhits the), wmean py (vhits the), wmean pz (vhits the)) in
    if existsb (fun v => nb v && match vhits v with [] => true | _ => false end) cur then Err ValueError else
    match min_of (flat_map (fun v => map (fun h => d3 (hpos h) bary) (vhits v)) (filter nb cur)) with
    | None => Err ValueError
    | Some m =>
      let sel h := isclose_sqrt (d3 (hpos h) bary) m in
      let total := sumF pe (flat_map (fun v => filter sel (vhits v)) (filter nb cur)) in
      if Qeqb total 0 then Err NotModelled else
      let share h := if sel h then set_pe (pe h * (1 + vE the / total)) h else h in
      Ok (map (fun v => set_E (sumF pe (vhits v)) v)
              (map (fun v => if nb v then set_hits (map share (vhits v)) v else v) cur))
    end
  end.

Section Drop.
  (** [paths] is shortest_paths (140-150): the voxels of the track in the order of the dictionary
      of distances, and the distances (networkx.all_pairs_dijkstra_path_length) *)
  Variables (paths : list voxel -> list voxel * (voxel -> voxel -> Q)) (thr : Q) (min_vxls : nat) (cont : contiguity).

  (** paolina_functions.py 169-175: find_extrema; None stands for (None, None) *)
  Definition extrema (t : list voxel) : result (option (nat * nat)) :=
    rbind (find_extrema_and_length (fst (paths t)) (snd (paths t))) (fun r =>
    Ok (match fst r with Some (a, b) => Some (vid a, vid b) | None => None end)).

  (** for paolina_functions.py 405-415 *)
  Record dstate := { dmod : list voxel; ddropped : list voxel; dmodified : bool }.

  (** paolina_functions.py 405-415: one end of a track. A voxel already dropped has energy nan,
      which is not below the threshold. Dropped voxels are recorded with the energies they had
      before set_nan_energies (389-391). *)
  Definition try_drop (s : dstate) (id : nat) : result dstate :=
    match find (fun v => vid v =? id)%nat (dmod s) with
    | None => Ok s
    | Some v =>
      if Qltb (vE v) thr && (1 <? count (neighbours cont v) (dmod s))%nat then
        rbind (drop_voxel (filter (fun u => negb (vid u =? id)%nat) (dmod s)) v) (fun cur =>
        Ok {| dmod := cur; ddropped := ddropped s ++ [v]; dmodified := true |})
      else Ok s
    end.

  (** paolina_functions.py 401-415: one track *)
  Definition drop_track (s : dstate) (t : list voxel) : result dstate :=
    if (length t <? min_vxls)%nat then Ok s else
    rbind (extrema t) (fun ab =>
    match ab with
    | None => Err AttributeError
    | Some (a, b) => rbind (try_drop s a) (fun s => try_drop s b)
    end).

  (** for paolina_functions.py 396-417 *)
  Fixpoint drop_tracks (s : dstate) (ts : list (list voxel)) : result dstate :=
    match ts with [] => Ok s | t :: ts => rbind (drop_track s t) (fun s => drop_tracks s ts) end.

  (** paolina_functions.py 396-417: the while loop, unrolled [fuel] times *)
  Fixpoint drop_loop (fuel : nat) (cur dropped : list voxel) : option (result (list voxel * list voxel)) :=
    match fuel with
    | O => None
    | S fuel =>
      match drop_tracks {| dmod := cur; ddropped := dropped; dmodified := false |} (make_track_graphs cont cur) with
      | Err e => Some (Err e)
      | Ok s => if dmodified s then drop_loop fuel (dmod s) (ddropped s) else Some (Ok (dmod s, ddropped s))
      end
    end.

  (** paolina_functions.py 332-417: drop_end_point_voxels; voxels[0] fails on an empty list *)
  Definition drop_end_point_voxels (fuel : nat) (vs : list voxel) : option (result (list voxel * list voxel)) :=
    match vs with [] => Some (Err IndexError) | _ => drop_loop fuel vs [] end.
End Drop.
