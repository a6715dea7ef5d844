(** Vocabulary for C108 *)
From Coq Require Import Sorted.
From Verif Require Import Base ReadModel CorrModel CorrSpec HitsModel HitsSpec EsmModel EsmSpec EsmProps PaolinaModel PaolinaSpec TopoModel TopoSpec TopoProps TopoSummary ErunModel.
Local Open Scope Q_scope.

Section Spec.
  Variables (m : list kbin) (dv : option Q) (R th : Q) (same_peak : bool) (others : hit -> nat) (round5 : Q -> Q) (max_num_hits : Z).

  (** [out] are the hits of an event that are left: those that, once corrected, are inside the circle and have enough charge. All of them have a positive
      energy; and no energy is lost if every hit inside the circle has some hit to give its energy to *)
  Definition hits_left (hits out : list hit) : Prop :=
    exists mid, Forall2 (corrected_hit m dv) hits mid /\
      Permutation (map place out) (map place (filter (fun h => EsmSpec.inside R h && above th h) mid)) /\
      (forall h, In h out -> positive (hEc h)) /\
      ((forall h, In h hits -> EsmSpec.inside R h = true -> exists c, In c hits /\ EsmSpec.inside R c = true /\ th <= hQ c /\ eligible same_peak h c) ->
       kept_energy th (filter (EsmSpec.inside R) mid) out hE /\ kept_energy th (filter (EsmSpec.inside R) mid) out hEc).

  (** a hit as the tracks see it: the energy is the corrected one *)
  Definition seen (h : hit) : thit :=
    {| tX := hX h; tY := hY h; tZ := hZ h; tE := match hE h with Some e => e | None => 0 end; tEc := hEc h; tEp := hEc h; tother := others h |}.

  (** what is written of an event with the hits [out] left *)
  Definition tracks_written (ev : Z) (out : list hit) (w : written) : Prop :=
    (out = [] /\ w = {| w_hits_passed := false; w_summary := []; w_topology := []; w_hits := []; w_tracks := [] |}) \/
    (out <> [] /\ w_hits_passed w = true /\ StronglySorted before (w_hits w) /\
     exists s, w_summary w = [s] /\ s_event s = ev /\ s_nhits s = length out /\ s_ntrks s = length (w_tracks w) /\ s_ec s == total hEc out /\
       box (w_hits w) (s_min s) (s_max s) /\ (exists x y z, s_ave s = (Some x, Some y, Some z) /\ centre ec (w_hits w) (x, y, z)) /\
       if (Z.of_nat (length out) <=? max_num_hits)%Z
       then s_oom s = false /\ w_topology w = [true] /\ event_tracks round5 ev (map seen out) (w_tracks w) (w_hits w) false
       else s_oom s = true /\ w_topology w = [false] /\ w_tracks w = [] /\ Permutation (map o_row (w_hits w)) (seq 0 (length out)) /\
            forall o, In o (w_hits w) -> exists h, nth_error out (o_row o) = Some h /\ o_pos o = (hX h, hY h, hZ h) /\ o_ec o = hEc h /\ o_ep o = hEc h /\ o_track o = (-1)%Z).

  (** the rows of CHITS/highTh of an event *)
  Definition chits (ev : Z) (out : list hit) (w : written) : list crow := map (fun o => {| c_number := ev; c_hit := nth (o_row o) out no_hit; c_out := o |}) (w_hits w).

  (** what the tables and counters of a run hold, for the events [items] of its input; [outs] are their hits left *)
  Definition tracks_file {K} (items : list (hitem (Z * hit) K)) (o : eout K) : Prop :=
    exists outs ws, Forall2 (fun it out => hits_left (map snd (i_hits it)) out) items outs /\
      Forall2 (fun x w => tracks_written (i_event (fst x)) (snd x) w) (combine items outs) ws /\
      eo_select o = map (fun x => (i_event (fst x), negb (length (snd x) =? 0)%nat)) (combine items outs) /\
      eo_topology o = concat (map2 (fun it w => map (pair (i_event it)) (w_topology w)) items ws) /\
      eo_summary o = flat_map w_summary ws /\ eo_tracks o = flat_map w_tracks ws /\
      eo_hits o = concat (map2 (fun x w => chits (i_event (fst x)) (snd x) w) (combine items outs) ws) /\
      eo_kdst o = flat_map i_kdst items /\ eo_info o = map (fun it => (i_run it, i_event it, i_time it)) items /\ eo_numbers o = map i_event items /\
      eo_in o = length items /\ eo_out o = length items.
End Spec.
