(** Corrected hits: hits_corrector of cities/components.py, hit_dropper of cities/esmeralda.py and the hits of one event in Esmeralda *)
From Verif Require Import Base CorrModel HitsModel.
Local Open Scope Q_scope.

(** core/system_of_units.py 170: MeV = 1 *)
Definition MeV : Q := 1.
(** the columns a correction writes *)
Definition with_ec (h : hit) (ec : num) : hit :=
  {| hmeta := hmeta h; npeak := npeak h; hX := hX h; hY := hY h; hZ := hZ h; hQ := hQ h; hE := hE h; hEc := ec |}.
(** for components.py 1762-1776: correct *)
Definition with_z (h : hit) (z : Q) : hit :=
  {| hmeta := hmeta h; npeak := npeak h; hX := hX h; hY := hY h; hZ := z; hQ := hQ h; hE := hE h; hEc := hEc h |}.

Section Corrector.
  (** griddata with method nearest, as in CorrModel *)
  Variable nearest : list (Q * Q * Q) -> Q * Q * Q -> nat.
  (** correction_functions.py 184-220: apply_correctionmap_inplace_hits with the column Ec; the frame is changed only when the
      energies could be computed *)
  Definition correct_inplace (m : list kbin) (method : norm_method) (xy : option region) (hits : list hit) : result (list hit) :=
    rbind (apply_3Dmap nearest m method xy (Some MeV) (map (fun h => (hZ h, hX h, hY h, hE h)) hits)) (fun ecs => Ok (map2 with_ec hits ecs)).
  (** components.py 1762-1776: correct. The frame of hits is written in place, so the result has two parts: the contents of the frame
      after the call, and what the call returns or raises. [dvs] is the column dv of the table of time evolution. 1771 reads
      [maps.ts], and the type KryptonMap (types/ic_types.py) has no such field. A median that is nan is not modelled. *)
  Definition correct (m : list kbin) (dvs : list (option Q)) (method : norm_method) (xy : option region) (apply_temp apply_z : bool)
    (hits : list hit) : list hit * result (list hit) :=
    match correct_inplace m method xy hits with
    | Err e => (hits, Err e)
    | Ok hits =>
      match (if apply_z then match nanmedian dvs with None => Err NotModelled | Some dv => Ok (map (fun h => with_z h (hZ h * dv)) hits) end else Ok hits) with
      | Err e => (hits, Err e)
      | Ok hits => (hits, if apply_temp then Err AttributeError else Ok hits)
      end
    end.
  (** esmeralda.py 60-66: hit_dropper; the index of the output starts again from zero, so it is a list *)
  Definition drop_hits (radius : Q) (hits : list hit) : list hit := filter (fun h => Qltb (hX h * hX h + hY h * hY h) (radius * radius)) hits.
  (** esmeralda.py 148-151, 179-181: what happens to the hits of one event before tracks are looked for *)
  Definition esmeralda_hits m dvs method xy apply_temp apply_z (radius th : Q) (same_peak : bool) (hits : list hit) : result (list hit) :=
    rbind (snd (correct m dvs method xy apply_temp apply_z hits)) (fun hits => Ok (threshold_hits_and_merge_nn th same_peak (drop_hits radius hits))).
  (** beersheba.py 489-490, 534-535: the same without the cut in radius *)
  Definition beersheba_hits m dvs method xy apply_temp apply_z (th : Q) (same_peak : bool) (hits : list hit) : result (list hit) :=
    rbind (snd (correct m dvs method xy apply_temp apply_z hits)) (fun hits => Ok (threshold_hits_and_merge_nn th same_peak hits)).
End Corrector.
