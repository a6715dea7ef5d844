(** Vocabulary for C13 *)
From Verif Require Import Base PeaksModel PmapioModel.
Local Open Scope nat_scope.

(** A peak as the rest of the program builds them: at least one sample, as many widths as times,
    one waveform per sensor, all with one sample per time, no sensor twice *)
Record sensors_ok (n : nat) (r : responses) : Prop := {
  ok_ids : NoDup (r_ids r);
  ok_rows : length (rows (r_wfs r)) = length (r_ids r);
  ok_row : Forall (fun row => length row = n) (rows (r_wfs r));
  ok_cols : cols (r_wfs r) = n }.
Definition s1_ok (p : peak) : Prop :=
  p_times p <> [] /\ length (p_widths p) = length (p_times p) /\ sensors_ok (length (p_times p)) (p_pmts p) /\ p_sipms p = empty_responses.
Definition s2_ok (p : peak) : Prop :=
  p_times p <> [] /\ length (p_widths p) = length (p_times p) /\ sensors_ok (length (p_times p)) (p_pmts p) /\
  (r_ids (p_sipms p) = [] \/ sensors_ok (length (p_times p)) (p_sipms p)).
Definition pmap_ok (pm : pmap) : Prop :=
  (forall p, In p (s1s pm) -> s1_ok p) /\ (forall p, In p (s2s pm) -> s2_ok p) /\
  (N.of_nat (length (s1s pm)) <= 65536)%N /\ (N.of_nat (length (s2s pm)) <= 65536)%N.

(** the same peak with every number as it is kept in a Float32 column *)
Definition round_responses (f32 : Q -> Q) (r : responses) : responses :=
  {| r_ids := r_ids r; r_wfs := {| cols := cols (r_wfs r); rows := map (map f32) (rows (r_wfs r)) |} |}.
Definition round_peak (f32 : Q -> Q) (p : peak) : peak :=
  {| p_times := map f32 (p_times p); p_widths := map f32 (p_widths p); p_pmts := round_responses f32 (p_pmts p);
     p_sipms := match r_ids (p_sipms p) with [] => empty_responses | _ => round_responses f32 (p_sipms p) end |}.
Definition round_pmap (f32 : Q -> Q) (pm : pmap) : pmap := {| s1s := map (round_peak f32) (s1s pm); s2s := map (round_peak f32) (s2s pm) |}.
Definition has_peaks (pm : pmap) : Prop := s1s pm <> [] \/ s2s pm <> [].
