(** Specification of the PMaps read from files of older versions *)
From Verif Require Import Base PeaksModel PmapioModel PmapioSpec OldPmModel.
Local Open Scope nat_scope.

Definition equally_spaced (times : list Q) (d : Q) : Prop := forall i, S i < length times -> (nth (S i) times 0 - nth i times 0 == d)%Q.
(** [g] is the largest distance between consecutive times *)
Definition largest_gap (times : list Q) (g : Q) : Prop :=
  (exists i, S i < length times /\ (nth (S i) times 0 - nth i times 0 == g)%Q) /\ forall i, S i < length times -> (nth (S i) times 0 - nth i times 0 <= g)%Q.
(** the widths given to samples without width *)
Definition guessed_widths (times ws : list Q) : Prop :=
  length ws = length times /\
  (length times = 1 -> ws = [1000%Q]) /\
  (1 < length times -> forall d, equally_spaced times d -> forall w, In w ws -> (w == d)%Q) /\
  ((forall d, ~ equally_spaced times d) -> forall g, largest_gap times g -> exists z : Z, (-500 <= g - inject_Z z * 1000 <= 500)%Q /\ forall w, In w ws -> (w == inject_Z z * 1000)%Q).

(** the peak read for the peak [p] written: [pmts] and [widths] say what the file has *)
Definition old_peak (f32 : Q -> Q) (pmts widths : bool) (p : peak) (o : ipeak) : Prop :=
  ip_times o = map f32 (p_times p) /\
  (if widths then ip_widths o = map f32 (p_widths p) else guessed_widths (ip_times o) (ip_widths o)) /\
  (if pmts then z_ids (ip_pmts o) = map Z.of_nat (r_ids (p_pmts p)) /\ rows (z_wfs (ip_pmts o)) = map (map f32) (rows (r_wfs (p_pmts p)))
   else z_ids (ip_pmts o) = [(-1)%Z] /\ rows (z_wfs (ip_pmts o)) = [map f32 (pmt_sum p)]) /\
  r_ids (ip_sipms o) = r_ids (p_sipms p) /\ (r_ids (p_sipms p) <> [] -> rows (r_wfs (ip_sipms o)) = map (map f32) (rows (r_wfs (p_sipms p)))).
