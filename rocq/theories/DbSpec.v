(** What C49 and C50 say *)
From Coq Require Import String.
From Verif Require Import Base Arrays PeaksModel DbModel.
Local Open Scope Z_scope.

(** ---- C49 ---- *)
(** the run whose constants are used *)
Definition used_run (run run' : Z) : Prop := run = 0 /\ run' = 3012 \/ run > 0 /\ run' = run \/ run < 0 /\ run' = - run.
(** the validity interval of a row contains the run: intervals without end contain no run, or all from their beginning *)
Definition covers {A} (run : Z) (d : dated A) : Prop := exists hi, upto d = Some hi /\ from d <= run <= hi.
Definition covers_open {A} (run : Z) (d : dated A) : Prop := from d <= run /\ (upto d = None \/ exists hi, upto d = Some hi /\ run <= hi).
Definition in_force {A} (run : Z) (t : list (dated A)) (a : A) : Prop := exists d, In d t /\ what d = a /\ covers run d.
Definition in_force_open {A} (run : Z) (t : list (dated A)) (a : A) : Prop := exists d, In d t /\ what d = a /\ covers_open run d.
(** [o] is a row that satisfies [P], and there is one unless [o] is missing *)
Definition some_or_none {A} (P : A -> Prop) (o : option A) : Prop := match o with Some a => P a | None => forall a, ~ P a end.
(** rows whose intervals contain the run have different keys *)
Definition one_per {A B} (cov : dated A -> Prop) (key : A -> B) (t : list (dated A)) : Prop :=
  ForallOrdPairs (fun d e => cov d -> cov e -> key (what d) <> key (what e)) t.

(** the row of a PMT made from these constants *)
Definition pmt_made_of (r : pmt) (p : position) (m : mapping) (n : option noise_rms) (k : option Z) (g : option gain) (b : option blr) : Prop :=
  pm_sensor r = p_sensor p /\ pm_channel r = m_elec m /\ pm_label r = p_label p /\ pm_x r = p_x p /\ pm_y r = p_y p /\ (pm_active r = true <-> k = None) /\
  pm_blr r = option_map (fun b => (b_blr b, b_c b)) b /\ pm_noise r = option_map n_rms n /\
  pm_gain r = match g with Some g => Qabs (g_centroid g) | None => 0%Q end /\ pm_gain_err r = option_map g_err_centroid g /\ pm_sigma r = option_map (fun g => (g_sigma g, g_err_sigma g)) g.
(** they are those of the run *)
Definition pmt_constants (d : db) (run : Z) (p : position) (m : mapping) (n : option noise_rms) (k : option Z) (g : option gain) (b : option blr) : Prop :=
  in_force run (positions d) p /\ p_sensor p < 100 /\ like_pmt (p_label p) = true /\ in_force run (mappings d) m /\ m_sensor m = p_sensor p /\
  some_or_none (fun n => in_force_open run (noises d) n /\ n_elec n = m_elec m) n /\
  some_or_none (fun k => in_force run (masks d) k /\ k = p_sensor p) k /\
  some_or_none (fun g => in_force run (gains d) g /\ g_sensor g = p_sensor p) g /\
  some_or_none (fun b => in_force_open run (blrs d) b /\ b_elec b = m_elec m) b.

Definition sipm_constants (d : db) (run : Z) (p : position) (g : gain) (m : mapping) (k : option Z) : Prop :=
  in_force run (positions d) p /\ 100 < p_sensor p /\ in_force run (gains d) g /\ g_sensor g = p_sensor p /\ in_force run (mappings d) m /\ m_sensor m = p_sensor p /\
  some_or_none (fun k => in_force run (masks d) k /\ k = p_sensor p) k.
Definition sipm_made_of (r : sipm) (p : position) (g : gain) (m : mapping) (k : option Z) (sigma : Q) : Prop :=
  sp_sensor r = p_sensor p /\ sp_channel r = m_elec m /\ (sp_active r = true <-> k = None) /\ sp_x r = p_x p /\ sp_y r = p_y p /\
  sp_gain r = g_centroid g /\ sp_gain_err r = g_err_centroid g /\ sp_err_sigma r = g_err_sigma g /\ sp_sigma r = sigma.
(** no SiPM of the run has a measured sigma *)
Definition no_sigma (d : db) (run : Z) : Prop := forall p g m k, sipm_constants d run p g m k -> (g_sigma g == 0)%Q.

(** ---- C50 ---- *)
Local Open Scope Q_scope.
(** the probability of the first [k] bins *)
Definition cumulative (p : list Q) (k : nat) : Q := sumQ (firstn k p).
(** [t] is the first bin where the probability up to it reaches the cut *)
Definition is_threshold (xbins p : list Q) (cut t : Q) : Prop :=
  exists k, (k < length p)%nat /\ nth_error xbins k = Some t /\ cut <= cumulative p (S k) /\ forall j, (j < k)%nat -> cumulative p (S j) < cut.
(** the probability of the bins with [f] *)
Definition probability (f : Q -> bool) (xbins p : list Q) : Q := sumF (fun xp => if f (fst xp) then snd xp else 0) (combine xbins p).
