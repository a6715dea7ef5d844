(** What C124 says *)
From Coq Require Import String.
From Verif Require Import Base HaltBase CalfModel.
Local Open Scope nat_scope.

(** a run that ends leaves [f] *)
Definition ends_with {T} (p : prog T unit) (empty f : T) : Prop := p empty = (f, Ok tt).
Definition fails_with {T} (p : prog T unit) (empty f : T) (e : pyexc) : Prop := p empty = (f, Err e).
(** [h] is the sum, bin by bin, of [h1] and [h2], that have the same size *)
Definition count (h : list (list nat)) (sensor bin : nat) : nat := nth bin (nth sensor h []) 0.
Definition same_size (h1 h2 : list (list nat)) : Prop := length h1 = length h2 /\ forall s, length (nth s h1 []) = length (nth s h2 []).
Definition sum_of (h1 h2 h : list (list nat)) : Prop := same_size h1 h /\ same_size h2 h /\ forall s b, count h s b = count h1 s b + count h2 s b.
(** the file of a run over the input of two: the events of the first and then those of the second; each spectrum is the sum of theirs; the sensors of the first *)
Definition summed {S} (f1 f2 f : calf S) : Prop :=
  cf_runs f = cf_runs f1 ++ cf_runs f2 /\ cf_events f = cf_events f1 ++ cf_events f2 /\ cf_sensors f = cf_sensors f1 /\
  length (cf_spectra f) = length (cf_spectra f1) /\ length (cf_spectra f) = length (cf_spectra f2) /\
  forall k t1 t2 t, nth_error (cf_spectra f1) k = Some t1 -> nth_error (cf_spectra f2) k = Some t2 -> nth_error (cf_spectra f) k = Some t ->
    fst t1 = fst t /\ fst t2 = fst t /\ exists h1 h2 h, snd t1 = [h1] /\ snd t2 = [h2] /\ snd t = [h] /\ sum_of h1 h2 h.
Definition prefix {A} (l m : list A) : Prop := exists rest, m = l ++ rest.
(** the configurations of the three cities, for the shapes of the waveforms of their input *)
Definition calibration_setup (su : setup) : Prop :=
  (exists butter sqrt db mode n_baseline n_maw b c s, phyllis_setup butter sqrt db mode n_baseline n_maw b c s = Ok su) \/
  (exists mode b c s, trude_setup mode b c s = Ok su) \/ (exists gains b s, berenice_setup gains b s = Ok su).
