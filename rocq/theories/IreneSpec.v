(** Vocabulary for C93: what a PMap of irene should hold *)
From Verif Require Import Base PeaksModel PeaksSpec CalibModel CalibSpec IreneModel.
Local Open Scope nat_scope.

(** the PMTs in use, each with its own raw waveform, and the SiPMs in use, with their position in the database *)
Definition pmts_in_use (pmts : list pmt_row) (rwf : list (list Z)) : list (pmt_row * list Z) :=
  filter (fun dw => pm_active (fst dw)) (combine pmts rwf).
Definition sipms_in_use (sipms : list sipm_row) (rwf : list (list Z)) : list (nat * (sipm_row * list Z)) :=
  filter (fun idw => sm_active (fst (snd idw))) (combine (seq 0 (length sipms)) (combine sipms rwf)).

(** the waveforms of a PMT, from its raw waveform and its own constants: deconvolved, and then in photoelectrons *)
Definition own_pmt (butter : Q -> Q * Q * Q) (sqrt : Q -> Q) (n_baseline : nat) (dw : pmt_row * list Z) (x : list Q * list Q) : Prop :=
  let '(d, w) := dw in let '(c, cc) := x in
  let '(b0, b1, a1) := butter (pm_clean d) in
  let first := filter (fun x => negb (x =? 0)%Z) (firstn n_baseline w) in
  let base := (sumF inject_Z first / inject_Z (Z.of_nat (length first)))%Q in
  (exists inv, Forall2 (fun z y => y == base - inject_Z z)%Q w inv /\ deconvolve_signal b0 b1 a1 sqrt (pm_blr d) 5 inv = Ok c) /\
  Forall2 (fun y z => z == if Qeqb (pm_gain d) 0 then 0 else y / Qabs (pm_gain d))%Q c cc.
(** the waveform of a SiPM in photoelectrons *)
Definition own_sipm (dw : sipm_row * list Z) (cs : list Q) : Prop :=
  let '(d, w) := dw in
  exists b, is_baseline BlsMode w b /\
    Forall2 (fun z y => y == if (z =? 0)%Z || Qeqb (sm_gain d) 0 then 0 else (inject_Z z - b) / Qabs (sm_gain d))%Q w cs.

(** the sums of the PMTs used to find S2 and S1 *)
Definition s2_sum (xs : list (list Q * list Q)) (k : nat) : Q := sumF (fun x => nth k (snd x) 0%Q) xs.
Definition s1_sum (n_maw : nat) (thr : Q) (xs : list (list Q * list Q)) (k : nat) : Q :=
  sumF (fun x => if Qle_bool (moving_average n_maw (fst x) k + thr) (nth k (fst x) 0) then nth k (snd x) 0 else 0)%Q xs.
(** [idx] are the samples where [f] is above [thr] *)
Definition samples_above (n : nat) (f : nat -> Q) (thr : Q) (idx : list nat) : Prop :=
  StronglySorted lt idx /\ forall k, In k idx <-> k < n /\ (thr < f k)%Q.

(** what the threshold on samples leaves of the charge [q] of the SiPM [id] *)
Definition kept (c : cutting) (id : nat) (q : Q) : Q :=
  match c with
  | CutThreshold (CommonThr t) _ => if Qltb t q then q else 0%Q
  | CutThreshold (IndividualThr ts) _ => if Qltb (nth id ts 0%Q) q then q else 0%Q
  | _ => q
  end.

(** the SiPMs of an S2 made of the PMT samples a..b, with [r] PMT samples per SiPM sample and [m] SiPM samples per bin *)
Definition sipm_bin (r m a b k : nat) (cs : list Q) : Q := charge_in (a / r + m * k) (Nat.min (b / r + 1) (a / r + m * (k + 1))) cs.
Definition own_sipms (c : cutting) (use : list (nat * (sipm_row * list Z))) (css : list (list Q)) (r m a b : nat) (pk : peak) : Prop :=
  let nb := length (p_times pk) in
  length (r_ids (p_sipms pk)) = length (rows (r_wfs (p_sipms pk))) /\
  (forall j id row, nth_error (r_ids (p_sipms pk)) j = Some id -> nth_error (rows (r_wfs (p_sipms pk))) j = Some row ->
     exists i dw cs, nth_error use i = Some (id, dw) /\ nth_error css i = Some cs /\
       length row = nb /\ forall k, k < nb -> (nth k row 0 == kept c id (sipm_bin r m a b k cs))%Q) /\
  (forall i id dw cs, nth_error use i = Some (id, dw) -> nth_error css i = Some cs ->
     match c with
     | CutThreshold _ thr => In id (r_ids (p_sipms pk)) <-> (thr <= sumF (fun k => kept c id (sipm_bin r m a b k cs)) (seq 0 nb))%Q
     | CutPyrrha _ _ _ => True
     | NoCut => In id (r_ids (p_sipms pk))
     end).

(** the waveforms of the PMTs in a peak made of the samples a..b: its bins hold [s] samples each, counted from [p] samples before a *)
Definition own_pmts (cc : mat) (s p a b : nat) (pk : peak) : Prop :=
  let nb := length (p_times pk) in
  s * (nb - 1) < p + (b + 1 - a) <= s * nb /\
  Forall2 (fun w row => forall k, k < nb -> (nth k row 0 == charge_in (a + (s * k - p)) (Nat.min (b + 1) (a + (s * (k + 1) - p))) w)%Q) (rows cc) (rows (r_wfs (p_pmts pk))).
(** an S1 or S2 made of the group of samples [g] *)
Definition s1_of (cc : mat) (wid : Q) (rebin : Z) (ids : list nat) (g : list nat) (pk : peak) : Prop :=
  exists a b, starts_at g a /\ ends_at g b /\ a <= b /\ made_of cc wid ids a b pk /\ consistent pk /\ own_pmts cc (Z.to_nat (Z.max 1 rebin)) 0 a b pk /\ p_sipms pk = empty_responses.
Definition s2_of (cc : mat) (wid : Q) (ids : list nat) (c : cutting) (use : list (nat * (sipm_row * list Z))) (css : list (list Q)) (r m : nat)
           (g : list nat) (pk : peak) : Prop :=
  exists a b, starts_at g a /\ ends_at g b /\ a <= b /\ made_of cc wid ids a b pk /\ consistent pk /\ own_pmts cc (r * m) (a mod r) a b pk /\
    StronglySorted lt (r_ids (p_sipms pk)) /\ own_sipms c use css r m a b pk.

(** the peaks [pks] are the groups of the samples [idx] that qualify *)
Definition peaks_of (s : pk_params) (wid : Q) (idx : list nat) (P : list nat -> peak -> Prop) (pks : list peak) : Prop :=
  exists gs good, gap_partition (k_stride s) idx (gs : list (list nat)) /\
    (forall g, good g = true <-> qualifies (k_time s) (k_length s) wid g) /\ Forall2 P (filter good gs) pks.

(** the detector, the configuration and the event: rectangular arrays with one row per sensor of the database, enough samples
    for the deconvolution, and an S2 rebinning of a whole number of SiPM samples *)
Record good_event (pmts : list pmt_row) (sipms : list sipm_row) (p : params) (ns nss : nat) (rp rs : list (list Z)) (r m : nat) : Prop := {
  ge_pmts : length rp = length pmts;
  ge_sipms : length rs = length sipms;
  ge_ns : Forall (fun w => length w = ns) rp;
  ge_nss : Forall (fun w => length w = nss) rs;
  ge_400 : 400 <= ns;
  ge_one : exists d, In d pmts /\ pm_active d = true;
  ge_blr : forall d, In d pmts -> pm_active d = true -> ~ (pm_blr d == 0)%Q;
  ge_baseline : 0 < n_baseline p;
  ge_maw : 0 < n_maw p;
  ge_wid : (0 < pmt_wid p)%Q;
  ge_thr : (0 <= thr_csum_s2 p)%Q;
  ge_r : 0 < r; ge_m : 0 < m;
  ge_ratio : Qfloor (sipm_wid p / pmt_wid p) = Z.of_nat r;
  ge_rebin : k_rebin (s2_params p) = Z.of_nat (r * m);
  ge_long : ns <= r * nss }.

(** the selection of SiPMs speaks of the SiPMs it is given: with one threshold or position for each SiPM of the database, this
    is only so when all of them are in use *)
Definition selection_fits (sipms : list sipm_row) (c : cutting) : Prop :=
  match c with
  | CutThreshold (IndividualThr ts) _ => length ts = length sipms /\ Forall (fun d => sm_active d = true) sipms
  | CutPyrrha _ _ _ => Forall (fun d => sm_active d = true) sipms
  | _ => True
  end.
