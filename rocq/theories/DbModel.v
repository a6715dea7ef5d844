(** Model of database/load_db.py and of the noise thresholds of core/random_sampling.py *)
From Coq Require Import String Ascii.
From Verif Require Import Base Arrays PeaksModel.
Local Open Scope Z_scope.

(** ---- tables with validity intervals ---- *)
(** a row of a table of the database with its columns MinRun and MaxRun; [None] is NULL *)
Record dated (A : Type) := { from : Z; upto : option Z; what : A }.
Arguments from {A}. Arguments upto {A}. Arguments what {A}.
(** load_db.py 39, 41, 46-47, 69, 72-74: [MinRun <= run and run <= MaxRun]; a comparison with NULL is not true *)
Definition valid {A} (run : Z) (d : dated A) : bool := (from d <=? run) && match upto d with Some m => run <=? m | None => false end.
(** load_db.py 37, 43, 98-111: [MinRun <= run and (MaxRun >= run or MaxRun is NULL)] *)
Definition valid_open {A} (run : Z) (d : dated A) : bool := (from d <=? run) && match upto d with Some m => run <=? m | None => true end.
(** for load_db.py 25-54: DataPMT *)
Definition current {A} (run : Z) (t : list (dated A)) : list A := map what (filter (valid run) t).
(** for load_db.py 25-54: DataPMT *)
Definition current_open {A} (run : Z) (t : list (dated A)) : list A := map what (filter (valid_open run) t).

(** ORDER BY: a stable sort; SQL leaves the order of ties open *)
Fixpoint insert_by {A} (le : A -> A -> bool) (x : A) (l : list A) : list A :=
  match l with [] => [x] | y :: l' => if le x y then x :: l else y :: insert_by le x l' end.
(** for load_db.py 25-54: DataPMT *)
Fixpoint sort_by {A} (le : A -> A -> bool) (l : list A) : list A := match l with [] => [] | x :: l => insert_by le x (sort_by le l) end.

(** ---- sensors ---- *)
(** the tables ChannelPosition, ChannelMapping, ChannelMask, ChannelGain, PmtNoiseRms and PmtBlr *)
Record position := { p_sensor : Z; p_label : string; p_x : Q; p_y : Q }.
(** for load_db.py 25-54: DataPMT *)
Record mapping := { m_sensor : Z; m_elec : Z }.
(** for load_db.py 25-54: DataPMT *)
Record gain := { g_sensor : Z; g_centroid : Q; g_err_centroid : Q; g_sigma : Q; g_err_sigma : Q }.
(** for load_db.py 25-54: DataPMT *)
Record noise_rms := { n_elec : Z; n_rms : Q }.
(** for load_db.py 25-54: DataPMT *)
Record blr := { b_elec : Z; b_blr : Q; b_c : Q }.
(** for load_db.py 25-54: DataPMT *)
Record db := { positions : list (dated position); mappings : list (dated mapping); masks : list (dated Z); gains : list (dated gain);
               noises : list (dated noise_rms); blrs : list (dated blr) }.

(** load_db.py 23, 27-28, 58-59: the run used for simulated data, and abs(run_number) *)
Definition run_number_for_mc : Z := 3012.
(** for load_db.py 25-54: DataPMT *)
Definition effective_run (run : Z) : Z := Z.abs (if run =? 0 then run_number_for_mc else run).

(** SQL: label LIKE 'PMT%' (letters in either case) *)
Definition is_letter (c u l : ascii) : bool := Ascii.eqb c u || Ascii.eqb c l.
(** for load_db.py 25-54: DataPMT *)
Definition like_pmt (s : string) : bool :=
  match s with String a (String b (String c _)) => is_letter a "P" "p" && is_letter b "M" "m" && is_letter c "T" "t" | _ => false end.

(** SQL: LEFT JOIN *)
Definition left_join {A} (l : list A) : list (option A) := match l with [] => [None] | _ => map Some l end.

(** for load_db.py 32-34 *)
Record pmt := { pm_sensor : Z; pm_channel : Z; pm_label : string; pm_active : bool; pm_x : Q; pm_y : Q; pm_blr : option (Q * Q);
                pm_gain : Q; pm_gain_err : option Q; pm_noise : option Q; pm_sigma : option (Q * Q) }.
(** load_db.py 32-34: the columns; abs(Centroid). Line 52: a missing gain is replaced with 0; the names gain and sigma in it are no columns. *)
Definition pmt_row (p : position) (m : mapping) (n : option noise_rms) (k : option Z) (g : option gain) (b : option blr) : pmt :=
  {| pm_sensor := p_sensor p; pm_channel := m_elec m; pm_label := p_label p; pm_active := match k with None => true | Some _ => false end;
     pm_x := p_x p; pm_y := p_y p; pm_blr := match b with None => None | Some b => Some (b_blr b, b_c b) end;
     pm_gain := match g with None => 0%Q | Some g => Qabs (g_centroid g) end; pm_gain_err := match g with None => None | Some g => Some (g_err_centroid g) end;
     pm_noise := match n with None => None | Some n => Some (n_rms n) end;
     pm_sigma := match g with None => None | Some g => Some (g_sigma g, g_err_sigma g) end |}.
(** load_db.py 25-54: DataPMT *)
Definition data_pmt (d : db) (run : Z) : list pmt :=
  let run := effective_run run in
  sort_by (fun a b => pm_sensor a <=? pm_sensor b)
    (flat_map (fun p => flat_map (fun m =>
       flat_map (fun n => flat_map (fun k => flat_map (fun g => map (fun b => pmt_row p m n k g b)
         (left_join (filter (fun b => b_elec b =? m_elec m) (current_open run (blrs d)))))
         (left_join (filter (fun g => g_sensor g =? p_sensor p) (current run (gains d)))))
         (left_join (filter (fun k => k =? p_sensor p) (current run (masks d)))))
         (left_join (filter (fun n => n_elec n =? m_elec m) (current_open run (noises d)))))
       (filter (fun m => m_sensor m =? p_sensor p) (current run (mappings d))))
     (filter (fun p => (p_sensor p <? 100) && like_pmt (p_label p)) (current run (positions d)))).

(** for load_db.py 63-65 *)
Record sipm := { sp_sensor : Z; sp_channel : Z; sp_active : bool; sp_x : Q; sp_y : Q; sp_gain : Q; sp_gain_err : Q; sp_sigma : Q; sp_err_sigma : Q }.
(** load_db.py 63-65: the columns *)
Definition sipm_row (p : position) (g : gain) (m : mapping) (k : option Z) : sipm :=
  {| sp_sensor := p_sensor p; sp_channel := m_elec m; sp_active := match k with None => true | Some _ => false end; sp_x := p_x p; sp_y := p_y p;
     sp_gain := g_centroid g; sp_gain_err := g_err_centroid g; sp_sigma := g_sigma g; sp_err_sigma := g_err_sigma g |}.
(** load_db.py 81-82: the default of Sigma *)
Definition default_sigma : Q := 224 # 100.
(** for load_db.py 56-84: DataSiPM *)
Definition with_sigma (q : Q) (s : sipm) : sipm :=
  {| sp_sensor := sp_sensor s; sp_channel := sp_channel s; sp_active := sp_active s; sp_x := sp_x s; sp_y := sp_y s; sp_gain := sp_gain s; sp_gain_err := sp_gain_err s; sp_sigma := q; sp_err_sigma := sp_err_sigma s |}.
(** load_db.py 56-84: DataSiPM *)
Definition data_sipm (d : db) (run : Z) : list sipm :=
  let run := effective_run run in
  let rows := sort_by (fun a b => sp_sensor a <=? sp_sensor b)
    (flat_map (fun p => flat_map (fun g => flat_map (fun m => map (fun k => sipm_row p g m k)
        (left_join (filter (fun k => k =? p_sensor p) (current run (masks d)))))
       (filter (fun m => m_sensor m =? p_sensor p) (current run (mappings d))))
      (filter (fun g => g_sensor g =? p_sensor p) (current run (gains d))))
     (filter (fun p => 100 <? p_sensor p) (current run (positions d)))) in
  if existsb (fun s => negb (Qeqb (sp_sigma s) 0)) rows then rows else map (with_sigma default_sigma) rows.

(** load_db.py 94-120: SiPMNoise. The energies of the bins, of which only the order is used here, are integers. *)
Record baseline_row := { l_sensor : Z; l_energy : Q }.
(** for load_db.py 94-120: SiPMNoise *)
Record pdf_row := { f_sensor : Z; f_bin : Z; f_prob : Q }.
(** for load_db.py 94-120: SiPMNoise *)
Fixpoint distinct (l : list Z) : list Z :=
  match l with [] => [] | x :: l => let r := distinct l in if existsb (Z.eqb x) r then r else x :: r end.
(** for load_db.py 94-120: SiPMNoise *)
Definition pdf_le (a b : pdf_row) : bool := (f_sensor a <? f_sensor b) || (f_sensor a =? f_sensor b) && (f_bin a <=? f_bin b).
(** numpy.reshape to [n] rows of [m] *)
Definition reshape {A} (n m : nat) (l : list A) : result (list (list A)) :=
  if (length l =? n * m)%nat then Ok (map (fun i => slice (i * m) (i * m + m) l) (seq 0 n)) else Err ValueError.
(** with load_db.py 94-120: SiPMNoise *)
Definition sipm_noise (bs : list (dated baseline_row)) (ps : list (dated pdf_row)) (run : Z) : result (list (list Q) * list Z * list Q) :=
  let run := Z.abs run in
  let baselines := map l_energy (sort_by (fun a b => l_sensor a <=? l_sensor b) (current_open run bs)) in
  let bins := sort_by Z.leb (distinct (map f_bin (current_open run ps))) in
  let data := map f_prob (sort_by pdf_le (current_open run ps)) in
  rbind (reshape (length baselines) (length bins) data) (fun noise => Ok (noise, bins, baselines)).

(** ---- functools.lru_cache(maxsize = n) ---- *)
Section Cache.
  Context {K V : Type} (eqb : K -> K -> bool) (f : K -> V) (maxsize : nat).
  (** the entries, the last used first *)
  Definition cache := list (K * V).
  (** for load_db.py 94-120: SiPMNoise *)
  Fixpoint look (k : K) (c : cache) : option (V * cache) :=
    match c with
    | [] => None
    | (k', v) :: c => if eqb k k' then Some (v, c) else match look k c with None => None | Some (w, c) => Some (w, (k', v) :: c) end
    end.
  (** with load_db.py 94-120: SiPMNoise *)
  Definition cached_call (c : cache) (k : K) : V * cache :=
    match look k c with
    | Some (v, c) => (v, (k, v) :: c)
    | None => let v := f k in (v, firstn maxsize ((k, v) :: c))
    end.
  (** the answers to a list of calls *)
  Fixpoint cached_calls (c : cache) (ks : list K) : list V :=
    match ks with [] => [] | k :: ks => let '(v, c) := cached_call c k in v :: cached_calls c ks end.
End Cache.

(** ---- random_sampling.py ---- *)
Local Open Scope Q_scope.
(** a float that may be infinite or not a number *)
Inductive ext := Fin (q : Q) | Inf | NegInf | NaN.

(** random_sampling.py 15-17: normalize_distribution *)
Definition normalize (w : list Q) : list Q := let s := sumQ w in if Qeqb s 0 then w else map (fun x => x / s) w.
(** random_sampling.py 37-39: inverse_cdf_index *)
Fixpoint first_at_least (y : list Q) (percentile : Q) : option nat :=
  match y with [] => None | q :: y => if Qle_bool percentile q then Some 0%nat else option_map S (first_at_least y percentile) end.
(** random_sampling.py 37-39: inverse_cdf_index *)
Definition inverse_cdf_index (y : list Q) (percentile : Q) : result nat :=
  match first_at_least y percentile with None => Err IndexError | Some k => Ok k end.
(** random_sampling.py 42-47: inverse_cdf *)
Definition inverse_cdf (x y : list Q) (percentile : Q) : result ext :=
  if negb (existsb (fun q => negb (Qeqb q 0)) y) then Ok Inf else
  rbind (inverse_cdf_index y percentile) (fun k => match nth_error x k with None => Err IndexError | Some q => Ok (Fin q) end).
(** random_sampling.py 75-101: general_thresholds *)
Definition general_thresholds (xbins : list Q) (probs : list (list Q)) (noise_cut : Q) : result (list ext) :=
  rmap (fun p => inverse_cdf xbins (np_cumsum p) noise_cut) probs.

(** random_sampling.py 137-160: the sampler, from the noise and the active sensors, as many as rows of noise (numpy would also accept a single one) *)
Definition mask (active : list bool) (probs : list (list Q)) : result (list (list Q)) :=
  if (length active =? length probs)%nat then Ok (map2 (fun (a : bool) p => if a then p else map (fun x => x * 0) p) active probs) else Err ValueError.
(** for random_sampling.py 170-189: compute_thresholds *)
Definition sampler_probs (active : list bool) (probs : list (list Q)) : result (list (list Q)) :=
  rbind (mask active probs) (fun p => Ok (map normalize p)).
(** a float times a finite number *)
Definition times (e : ext) (q : Q) : ext :=
  match e with
  | Fin x => Fin (x * q)
  | Inf => if Qltb 0 q then Inf else if Qltb q 0 then NegInf else NaN
  | NegInf => if Qltb 0 q then NegInf else if Qltb q 0 then Inf else NaN
  | NaN => NaN
  end.
(** random_sampling.py 170-189: compute_thresholds, with one conversion factor per sensor *)
Definition compute_thresholds (xbins : list Q) (active : list bool) (probs : list (list Q)) (noise_cut : Q) (pes_to_adc : list Q) : result (list ext) :=
  rbind (sampler_probs active probs) (fun p => rbind (general_thresholds xbins p noise_cut) (fun cuts =>
  if (length cuts =? length pes_to_adc)%nat then Ok (map2 times cuts pes_to_adc) else Err ValueError)).
