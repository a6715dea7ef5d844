(** Model of the hit cleaning and of the energy assignment around the deconvolution (reco/deconv_functions.py, cities/beersheba.py) *)
From Verif Require Import Base Arrays PeaksModel DbModel CorrModel PaolinaModel Graph PsfModel.
Local Open Scope Q_scope.

(** a hit: its label in the index of the data frame, the columns event, time, npeak as one key, X, Y, Z, Q and the variables to redistribute *)
Record dhit := { d_index : nat; d_peak : list Q; dX : Q; dY : Q; dZ : Q; dQ : Q; dvars : list Q }.
(** for deconv_functions.py 136-141, 178-183, 230-235 *)
Definition column (i : nat) (l : list dhit) : Q := sumF (fun h => nth i (dvars h) 0) l.
(** for deconv_functions.py 136-141, 178-183, 230-235 *)
Definition set_vars (h : dhit) (vs : list Q) : dhit := {| d_index := d_index h; d_peak := d_peak h; dX := dX h; dY := dY h; dZ := dZ h; dQ := dQ h; dvars := vs |}.
(** deconv_functions.py 136-141, 178-183, 230-235: scale each of the n variables by its sum over all hits / its sum over the passing hits;
    a zero sum (the values become NaN or infinite) is not modelled *)
Definition redistribute (n : nat) (all pass : list dhit) : result (list dhit) :=
  match pass with
  | [] => Ok []
  | _ => if existsb (fun i => Qeqb (column i pass) 0) (seq 0 n) then Err NotModelled
         else Ok (map (fun h => set_vars h (mapi (fun i v => v * (column i all / column i pass)) (dvars h))) pass)
  end.
(** deconv_functions.py 132-143, beersheba.py 307: cut_and_redistribute_df with the condition Q > q_cut *)
Definition cut_and_redistribute (q_cut : Q) (n : nat) (df : list dhit) : result (list dhit) := redistribute n df (filter (fun h => Qltb q_cut (dQ h)) df).
(** deconv_functions.py 163-185: drop_isolated_sensors; distances are compared through their squares *)
Definition d2 (a b : dhit) : Q := (dX a - dX b) * (dX a - dX b) + (dY a - dY b) * (dY a - dY b).
(** for beersheba.py 337-357: drop_isolated *)
Definition drop_isolated_sensors (dx dy : Q) (n : nat) (df : list dhit) : result (list dhit) :=
  if negb (existsb (fun a => existsb (fun b => Qltb 0 (d2 a b)) df) df) then Ok [] else
  rbind (rmap (fun a => match filter (Qltb 0) (map (d2 a) df) with
                        | [] => Err ValueError
                        | ds => Ok (Qle_bool (minQ' ds) (dx * dx + dy * dy))
                        end) df)
        (fun mask => redistribute n df (pick_where mask df)).
(** deconv_functions.py 208-237: drop_isolated_clusters. The order of the rows follows that of a Python set of labels, which is not specified; here the components follow one another. *)
Definition within (dx dy dz : Q) (a b : dhit) : bool :=
  let u := dX a / dx - dX b / dx in let v := dY a / dy - dY b / dy in let w := dZ a / dz - dZ b / dz in Qle_bool (u * u + v * v + w * w) 3.
(** for deconv_functions.py 188-237: drop_isolated_clusters *)
Definition close_pairs (dx dy dz : Q) (df : list dhit) : list (nat * nat) :=
  map (fun p => (d_index (fst p), d_index (snd p))) (filter (fun p => within dx dy dz (fst p) (snd p)) (combinations2 df)).
(** for deconv_functions.py 188-237: drop_isolated_clusters *)
Definition edge (es : list (nat * nat)) (u v : nat) : bool := existsb (fun e => ((fst e =? u) && (snd e =? v))%nat || ((fst e =? v) && (snd e =? u))%nat) es.
(** for deconv_functions.py 188-237: drop_isolated_clusters *)
Definition graph_nodes (df : list dhit) (es : list (nat * nat)) : list nat := nodup Nat.eq_dec (seq 0 (length df) ++ flat_map (fun e => [fst e; snd e]) es).
(** for deconv_functions.py 188-237: drop_isolated_clusters *)
Definition loc (df : list dhit) (label : nat) : result (list dhit) := match filter (fun h => (d_index h =? label)%nat) df with [] => Err KeyError | l => Ok l end.
(** deconv_functions.py 188-237: drop_isolated_clusters *)
Definition drop_isolated_clusters (dx dy dz : Q) (nhits : Z) (n : nat) (df : list dhit) : result (list dhit) :=
  if Qeqb dx 0 || Qeqb dy 0 || Qeqb dz 0 then Err NotModelled else
  let es := close_pairs dx dy dz df in
  match filter (fun k => (nhits <? Z.of_nat (length k))%Z) (components (edge es) (graph_nodes df es)) with
  | [] => Err TypeError
  | passing => rbind (rmap (loc df) (concat passing)) (fun rows => redistribute n df (concat rows))
  end.
(** beersheba.py 309-315, 349-355: groupby(event, time, npeak).apply(f) and a new index *)
Definition renumber (l : list dhit) : list dhit := mapi (fun i h => {| d_index := i; d_peak := d_peak h; dX := dX h; dY := dY h; dZ := dZ h; dQ := dQ h; dvars := dvars h |}) l.
(** for beersheba.py 309-315, 349-355 *)
Definition per_peak (f : list dhit -> result (list dhit)) (df : list dhit) : result (list dhit) :=
  match df with
  | [] => Ok []
  | _ => rbind (rmap (fun k => f (filter (fun h => key_eqb k (d_peak h)) df)) (group_keys (map d_peak df))) (fun ls => Ok (renumber (concat ls)))
  end.
(** with beersheba.py 309-315, 349-355 *)
Definition cut_over_Q (q_cut : Q) (n : nat) : list dhit -> result (list dhit) := per_peak (cut_and_redistribute q_cut n).
(** beersheba.py 337-357: drop_isolated; the error cases of the configuration come first *)
Definition drop_isolated (distance : list Q) (nhits : option Z) (n : nat) (df : list dhit) : result (list dhit) :=
  match distance with
  | [dx; dy] => per_peak (drop_isolated_sensors dx dy n) df
  | [dx; dy; dz] => match nhits with None => Err TypeError | Some k => per_peak (drop_isolated_clusters dx dy dz k n) df end
  | _ => Err ValueError
  end.

(** ---- the deconvolved hits ---- *)
Inductive cut_type := CutAbs | CutRel.
(** a deconvolved hit *)
Record deco := { oX : Q; oY : Q; oZ : Q; oE : Q }.
(** beersheba.py 240-275: create_deconvolution_df in two dimensions: the pixels of the image with their positions, and the z of the slice;
    an image whose maximum is 0 has no pixel with a relative value above the cut (NaN or minus infinity) *)
Definition create_deconvolution_df (z : Q) (image : list (Q * Q * Q)) (ct : cut_type) (e_cut : Q) : result (list deco) :=
  let selected sel := Ok (map (fun p => let '(x, y, e) := p in {| oX := x; oY := y; oZ := z; oE := e |}) (filter (fun p => sel (snd p)) image)) in
  match ct with
  | CutAbs => selected (fun e => Qltb e_cut e)
  | CutRel => match maxQ (map snd image) with
              | None => Err ValueError
              | Some m => if Qeqb m 0 then Ok [] else selected (fun e => Qltb e_cut (e / m))
              end
  end.
(** beersheba.py 278-289: distribute_energy; no hits: nothing to distribute; a zero sum is not modelled *)
Definition distribute_energy (df : list deco) (energy : Q) : result (list deco) :=
  match df with
  | [] => Ok []
  | _ => if Qeqb (sumF oE df) 0 then Err NotModelled
         else Ok (map (fun o => {| oX := oX o; oY := oY o; oZ := oZ o; oE := oE o / sumF oE df * energy |}) df)
  end.
Section Deconvolution.
  (** the deconvolution of a slice (positions and normalised charges of its hits, position of the peak, z): the image with the positions of its pixels *)
  Variable deconvolution : list (Q * Q * Q) -> Q -> list (Q * Q * Q).
  Variable round6 : Q -> Q.
  Variables (ct : cut_type) (e_cut : Q) (energy : nat).
  (** beersheba.py 174-208: deconvolve_hits *)
  Definition deconvolve_hits (total : Q) (df : list dhit) (z : Q) : result (list deco) :=
    create_deconvolution_df z (deconvolution (map (fun h => (dX h, dY h, dQ h / total)) df) z) ct e_cut.
  (** beersheba.py 225-230: one peak; a zero total charge is not modelled *)
  Definition deconvolve_peak (hits : list dhit) : result (list deco) :=
    let total := sumF dQ hits in
    if Qeqb total 0 then Err NotModelled else
    rbind (rmap (fun z => deconvolve_hits total (filter (fun h => key_eqb z [dZ h]) hits) (nth 0 z 0)) (group_keys (map (fun h => [dZ h]) hits))) (fun slices =>
      distribute_energy (concat slices) (column energy hits)).
  (** beersheba.py 210-235: apply_deconvolution for one event; [d_peak] has the peak number *)
  Definition apply_deconvolution (df : list dhit) : result (list (list Q * deco)) :=
    rbind (rmap (fun k => rbind (deconvolve_peak (filter (fun h => key_eqb k (d_peak h)) df)) (fun l => Ok (map (fun o => (k, o)) l))) (group_keys (map d_peak df))) (fun ls =>
      Ok (map (fun ko => (fst ko, {| oX := oX (snd ko); oY := oY (snd ko); oZ := oZ (snd ko); oE := round6 (oE (snd ko)) |})) (concat ls))).
End Deconvolution.
