(** Vocabulary for C110 *)
From Verif Require Import Base ConfigModel TablesModel PeaksModel PeaksSpec CalibModel CalibSpec IreneModel IreneSpec PmapioModel PmapioSpec PreadModel FrunModel.
Local Open Scope nat_scope.

(** [pm] is what irene builds for the event [w]: nothing if the sums of its PMTs have no sample above one of the thresholds, and otherwise the peaks,
    that are the groups of such samples that qualify (see IreneSpec.v) *)
Definition right_step (butter : Q -> Q * Q * Q) (sqrt : Q -> Q) (pmts : list pmt_row) (sipms : list sipm_row) (p : params) (ns r m : nat) (w : rwf_event) (pm : option pmap) : Prop :=
  exists xs css i1 i2,
    Forall2 (own_pmt butter sqrt (n_baseline p)) (pmts_in_use pmts (w_pmt w)) xs /\
    Forall2 (fun x cs => own_sipm (snd x) cs) (sipms_in_use sipms (w_sipm w)) css /\
    samples_above ns (s1_sum (n_maw p) (thr_maw p) xs) (thr_csum_s1 p) i1 /\
    samples_above ns (s2_sum xs) (thr_csum_s2 p) i2 /\
    let cc := {| cols := ns; rows := map snd xs |} in
    let ids := map pm_id (filter pm_active pmts) in
    match pm with
    | None => i1 = [] \/ i2 = []
    | Some pm => i1 <> [] /\ i2 <> [] /\
        peaks_of (s1_params p) (pmt_wid p) i1 (s1_of cc (pmt_wid p) (k_rebin (s1_params p)) ids) (s1s pm) /\
        peaks_of (s2_params p) (pmt_wid p) i2 (s2_of cc (pmt_wid p) ids (cut p) (sipms_in_use sipms (w_sipm w)) css r m) (s2s pm)
    end.

(** the events of which there is something, in order *)
Definition those_with {E A} (l : list (E * option A)) : list (E * A) := flat_map (fun x => match snd x with Some a => [(fst x, a)] | None => [] end) l.
Definition some_peak (pm : pmap) : bool := match s1s pm, s2s pm with [], [] => false | _, _ => true end.
(** the events with a PMap and some peak in it *)
Definition with_peaks {E} (l : list (E * option pmap)) : list (E * pmap) := filter (fun x => some_peak (snd x)) (those_with l).
Definition number {W L} (w : waveforms (Z * Q) W L Z (list Z)) : Z := fst (w_event w).
(** the trigger types that are given and are not 0, and the trigger channels that are given *)
Definition types_of {W L} (l : list (waveforms (Z * Q) W L Z (list Z))) : list Z := flat_map (fun w => match w_trg w with Some z => if (z =? 0)%Z then [] else [z] | None => [] end) l.
Definition channels_of {W L} (l : list (waveforms (Z * Q) W L Z (list Z))) : list (list Z) := flat_map (fun w => match w_chn w with Some c => [c] | None => [] end) l.
Definition channels_fit {W L} (n : nat) (w : waveforms (Z * Q) W L Z (list Z)) : Prop := forall c, w_chn w = Some c -> List.length c = n.

(** The tables of a run over [events], of which [pms] are the PMaps: every event in the table of indices with whether it has samples over both thresholds, those
    that have in the table of PMaps with whether there is a peak, and those with peaks in all the other tables. Read back, the file gives the PMaps of these
    events, in single precision, all with the run number of the first. *)
Definition right_tables {W L} (f32 : Q -> Q) (events : list (waveforms (Z * Q) W L Z (list Z))) (pms : list (option pmap)) (o : irene_tables) : Prop :=
  let kept := with_peaks (combine events pms) in
  it_indices o = map (fun x => (number (fst x), match snd x with Some _ => true | None => false end)) (combine events pms) /\
  it_peaks o = map (fun x => (number (fst x), some_peak (snd x))) (those_with (combine events pms)) /\
  it_events o = map (fun x => w_event (fst x)) kept /\ it_runs o = map (fun x => w_run (fst x)) kept /\ it_numbers o = map (fun x => number (fst x)) kept /\
  trg_types (it_trigger o) = types_of (map fst kept) /\ trg_channels (it_trigger o) = channels_of (map fst kept) /\
  it_in o = List.length events /\ it_out o = List.length kept /\
  exists part, pmap_from_files [irene_output o] = (part, None) /\
    Forall2 (fun x it => pi_event it = number (fst x) /\ pi_time it = snd (w_event (fst x)) /\ Some (pi_run it) = head (it_runs o) /\ pi_pmap it = round_pmap f32 (snd x)) kept part.

(** ---- diomira ---- *)
From Verif Require Import NoiseModel FeeModel FeeSpec HypaModel HypaSpec TrigModel DioModel DioSpec.
(** the random numbers of the event number [i] of a run *)
Record randoms := { rn_pmt : nat -> nat -> Q -> Q; rn_sipm : nat -> nat -> Q -> Q; rn_noise : nat -> pmt_noise; rn_dark : list (list Q) }.
(** what diomira makes of the light of an event: the waveforms of every PMT (with and without the electronics' negative swing) follow from its own light, the
    trigger decides on the former, and for an event that passes every SiPM has the counts of its own light *)
Definition simulated (butter : Q -> Q * Q * Q) (sqrt : Q -> Q) (e : electronics) (db : list dio_row) (sipms : list sim_row) (noise_cut : Q) (padding : nat) (t : option (bool * trig_conf)) (ns nss : nat)
  (rn : randoms) (w : mcrd_event) (out : option (list (list Z) * list (list Z) * list (list Z))) : Prop :=
  exists rwf blr, List.length rwf = List.length db /\ List.length blr = List.length db /\ Forall (fun z => List.length z = ns / 25) rwf /\ Forall (fun z => List.length z = ns / 25) blr /\
    (forall i d l, nth_error db i = Some d -> nth_error (w_pmt w) i = Some l -> exists zr zb, nth_error rwf i = Some zr /\ nth_error blr i = Some zb /\ pmt_counts e (rn_pmt rn i) i d (rn_noise rn i) l zr zb) /\
    match out with
    | None => trigger_decision butter sqrt (map dp_row db) t rwf = Ok false
    | Some (rwf', blr', counts) => rwf' = rwf /\ blr' = blr /\ trigger_decision butter sqrt (map dp_row db) t rwf = Ok true /\
        List.length counts = List.length sipms /\ Forall (fun z => List.length z = nss) counts /\
        forall s d n l, nth_error sipms s = Some d -> nth_error (rn_dark rn) s = Some n -> nth_error (w_sipm w) s = Some l -> exists z, nth_error counts s = Some z /\ sipm_counts (rn_sipm rn s) d noise_cut padding n l z
    end.
(** the event is one that can be simulated: arrays of the shapes of the database, counts of 16 bits and a trigger that does not fail *)
Definition good_light (butter : Q -> Q * Q * Q) (sqrt : Q -> Q) (e : electronics) (db : list dio_row) (sipms : list sim_row) (t : option (bool * trig_conf)) (ns nss : nat) (rn : randoms) (w : mcrd_event) : Prop :=
  good_mc e (rn_noise rn) db sipms ns nss (w_pmt w) (w_sipm w) (rn_dark rn) /\ pmt_counts_fit e (rn_pmt rn) (rn_noise rn) db (w_pmt w) /\ counts_fit (rn_sipm rn) sipms (w_sipm w) (rn_dark rn) /\
  forall rwf blr, simulate_pmts e (rn_pmt rn) (rn_noise rn) db (w_pmt w) = Ok (rwf, blr) -> exists b, trigger_decision butter sqrt (map dp_row db) t rwf = Ok b.
(** the event of the file of diomira with the waveforms of an event that passes *)
Definition in_file (run : Z) (x : mcrd_event * (list (list Z) * list (list Z) * list (list Z))) : rwf_event :=
  {| w_pmt := fst (fst (snd x)); w_sipm := snd (snd x); w_run := run; w_event := w_event (fst x); w_trg := None; w_chn := None |}.
(** the parts of irene's configuration and of the database that C93 needs (see IreneSpec.good_event), for waveforms of [ns] and [nss] samples *)
Record good_setup (pmts : list pmt_row) (sipms : list sipm_row) (p : params) (ns nss r m : nat) : Prop := {
  gs_400 : 400 <= ns;
  gs_one : exists d, In d pmts /\ pm_active d = true;
  gs_blr : forall d, In d pmts -> pm_active d = true -> ~ (pm_blr d == 0)%Q;
  gs_baseline : 0 < n_baseline p;
  gs_maw : 0 < n_maw p;
  gs_wid : (0 < pmt_wid p)%Q;
  gs_thr : (0 <= thr_csum_s2 p)%Q;
  gs_r : 0 < r; gs_m : 0 < m;
  gs_ratio : Qfloor (sipm_wid p / pmt_wid p) = Z.of_nat r;
  gs_rebin : k_rebin (s2_params p) = Z.of_nat (r * m);
  gs_long : ns <= r * nss }.
