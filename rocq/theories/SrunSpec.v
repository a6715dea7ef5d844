(** Vocabulary for C107 *)
From Verif Require Import Base PeaksModel PeaksSpec ReadModel PmapioModel FiltersModel FiltersSpec XyModel HitsModel HitsSpec CorrModel CorrSpec EsmModel EsmSpec SophModel SophSpec SophEnergy SoeModel SoeSpec KrModel KrSpec PreadModel DorSpec.
Local Open Scope nat_scope.

Section Spec.
  Variables (xys : list (Q * Q)) (v : Q) (charges : list nat -> list Q -> Q -> list Q) (qthr : Q) (c : limits) (md : rebin_model) (thr : Q) (same_peak : bool) (corr : option corrections).

  (** the charge-weighted position of a peak, from the positions of its SiPMs and their charges, or NN if there is none *)
  Definition weighted_position (ps : list (Q * Q)) (qs : list Q) (xy : Q * Q) : Prop :=
    exists g, only (fun s => qthr <= snd s)%Q (combine ps qs) g /\
    let total := sumF snd g in
    if Qeqb (sumF snd (combine ps qs)) 0 || Qeqb total 0 then xy = (HitsModel.NN, HitsModel.NN)
    else (fst xy == sumF (fun s => snd s * fst (fst s)) g / total /\ snd xy == sumF (fun s => snd s * snd (fst s)) g / total)%Q.

  (** the hits of a peak of number [i], made from its samples after rebinning *)
  Definition peak_hits (t0 : Q) (i : nat) (p : peak) (hs : list shit) : Prop :=
    Forall (fun h => q_npeak h = i) hs /\
    (exists xy ps, Forall2 (fun j q => nth_error xys j = Some q) (r_ids (p_sipms p)) ps /\ weighted_position ps (charges_in charges p) xy /\ Forall (fun h => (q_Xpeak h, q_Ypeak h) = xy) hs) /\
    exists groups, Forall2 (hits_of_sample xys v t0 charges thr p) (seq 0 (length (p_times p))) groups /\ hs = concat groups.

  (** the hits written of an accepted event, or none if no SiPM is over threshold. The drift is measured from the first good S1, or from the start
      of the first good S2. *)
  Definition event_hits (it : pitem) (o : option (list hit)) : Prop :=
    exists l1 chosen t0 rebinned groups,
      only (good_s1 c) (s1s (pi_pmap it)) l1 /\
      only (fun ip => good_s2 c (snd ip)) (combine (seq 0 (length (s2s (pi_pmap it)))) (s2s (pi_pmap it))) chosen /\
      match l1 with p :: _ => t0 = time_at_max_energy p | [] => exists i p rest ts, chosen = (i, p) :: rest /\ p_times p = t0 :: ts end /\
      Forall2 (fun ip p' => rebin_peak (snd ip) md = Ok p') chosen rebinned /\
      Forall2 (fun ip hs => peak_hits t0 (fst ip) (snd ip) hs) (combine (map fst chosen) rebinned) groups /\
      match o with
      | None => forall p, In p rebinned -> ~ lights_up charges thr p
      | Some out => (exists p, In p rebinned /\ lights_up charges thr p) /\ exists merged, corrected_as corr merged out /\ Forall2 row_of_hit (filter with_position (concat groups)) merged /\
        ((forall i p, In (i, p) chosen -> not_negative p) -> forall h, In h merged -> 0 <= HitsSpec.val (hE h))%Q /\
        ((forall i p, In (i, p) chosen -> not_negative p) -> (forall p, In p rebinned -> bright p) -> (same_peak = true -> forall p, In p rebinned -> lights_up charges thr p) ->
         (forall h, In h merged -> finite (hE h)) /\ total hE merged <= event_energy chosen /\ event_energy chosen * thr <= total hE merged * (thr + EPSILON))%Q
      end.
End Spec.
