(** Vocabulary for C109 *)
From Verif Require Import Base PeaksModel PsfModel PsfSpec DeconvModel DeconvSpec DeconvPeak ReadModel CorrModel CorrSpec HitsModel HitsSpec EsmModel EsmSpec EsmProps BeerModel BeerSpec BeerProps BrunModel.
Local Open Scope Q_scope.

Section Spec.
  Variable deconvolution : list (Q * Q * Q) -> Q -> list (Q * Q * Q).
  Variable round6 : Q -> Q.
  Variables (m : list kbin) (dv : option Q) (c : beer_conf).

  (** [low] are the hits of an event over the threshold of charge, corrected. All of them have positive energies; and no energy is lost if every
      hit has some hit to give its energy to *)
  Definition hits_over (hits low : list hit) : Prop :=
    exists mid, Forall2 (corrected_hit m dv) hits mid /\
      Permutation (map place low) (map place (filter (EsmSpec.above (b_threshold c)) mid)) /\
      (forall h, In h low -> HitsSpec.positive (hE h) /\ HitsSpec.positive (hEc h)) /\
      ((forall h, In h hits -> exists g, In g hits /\ b_threshold c <= hQ g /\ eligible (b_same_peak c) h g) ->
       kept_energy (b_threshold c) mid low hE /\ kept_energy (b_threshold c) mid low hEc).

  (** the deconvolved hits [rows] of an event with the hits [low] over threshold, and whether it has hits left: those above the charge cut that are
      not isolated. Peak by peak, the pixels above the cut of the images of the slices of these hits share the energy of the hits over threshold. *)
  Definition deconvolved (time : Q) (low : list hit) (passed : bool) (rows : list (list Q * deco * Q)) : Prop :=
    (forall r, In r rows -> snd r = time / 1000) /\
    (exists df kept, Forall2 row_of low df /\ (passed = true <-> exists k, kept k <> []) /\
      forall k peak here, picks d_peak k df peak -> picks peak_of k rows here ->
        clean (b_q_cut c) (b_drop_dist c) (b_cluster_size c) peak (kept k) /\
        (kept k = [] /\ here = []
         \/ kept k <> [] /\ exists slices pixels, slices_of (kept k) slices /\
            Forall2 (fun s px => survivors (DeconvPeak.above (b_cut_type c) (b_e_cut c) (image_of deconvolution (kept k) s)) (image_of deconvolution (kept k) s) px) slices pixels /\
            (here = [] /\ concat pixels = []
             \/ proportional round6 (concat (map2 (fun s px => map (pair (fst s)) px) slices pixels)) (DeconvSpec.total (b_energy c) peak) (map (fun r => snd (fst r)) here)))) /\
    (forall err, (forall x, Qabs (round6 x - x) <= err) -> forall k here, picks peak_of [qn k] rows here -> here <> [] ->
      Qabs (sumF energy_of_row here - HitsSpec.total (energy_column (b_energy c)) (filter (fun h => (npeak h =? k)%nat) low)) <= qn (length here) * err).

  (** what the tables and counters of a run hold, for the events [items] of its input *)
  Definition deco_file {K} (items : list (hitem (Z * hit) K)) (o : bout K) : Prop :=
    exists outs, Forall2 (fun it b => hits_over (map snd (i_hits it)) (bo_hits b) /\ deconvolved (i_time it) (bo_hits b) (bo_passed b) (bo_deco b)) items outs /\
      br_hits o = concat (map2 (fun it b => map (pair (i_event it)) (bo_hits b)) items outs) /\
      br_filter o = map2 (fun it b => (i_event it, bo_passed b)) items outs /\
      let left := filter (fun x => bo_passed (snd x)) (combine items outs) in
      br_deco o = concat (map (fun x => map (pair (i_event (fst x))) (bo_deco (snd x))) left) /\
      br_kdst o = flat_map (fun x => i_kdst (fst x)) left /\ br_info o = map (fun x => (i_run (fst x), i_event (fst x), i_time (fst x))) left /\
      br_numbers o = map (fun x => i_event (fst x)) left /\ br_in o = length items /\ br_out o = length left /\
      br_passed o = length left /\ (br_passed o + br_failed o = length items)%nat.
End Spec.
