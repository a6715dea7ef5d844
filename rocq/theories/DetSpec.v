(** Vocabulary for C115 *)
From Coq Require Import String Qround.
From Verif Require ReadModel ReadSpec ReadMc.
From Verif Require Import Base Arrays PeaksModel BuffersModel BuffersSpec DetsimModel DetsimSpec S1Model S1Spec DsimModel DsimSpec FrunModel BfyModel BfySpec DetModel.
Local Open Scope nat_scope.

(** the number that the file gives to the volume [v] *)
Definition volume (names : list (nat * nat)) (v n : nat) : Prop := (forall x, In x names -> fst x = v -> snd x = n) /\ exists x, In x names /\ fst x = v.
(** the events of a file, in increasing order of their numbers, with their hits in the order of the file and a time in the period of the number *)
Definition from_file (rate : Q) (f : hfile) (part : list ditem) : Prop :=
  exists groups, ReadMc.events_of_file fst (hf_hits f) groups /\
    Forall2 (fun g e => di_event e = fst g /\ di_hits e = map snd (snd g) /\ di_names e = hf_names f /\ ReadSpec.in_period rate (fst g) (di_time e)) groups part.

Section Spec.
  Variable sqrtQ : Q -> Q.
  Variable emitted : Q -> Q.
  Variable s1_lt : list Q -> list Q -> list Q -> result (list (list Q)).
  Variables (p : physics) (lt_pmt lt_sipm : light_table) (ACTIVE BUFFER : nat).

  (** the hits of the event in the volumes, less than the longest time of an event after its first hit *)
  Definition hits_in (c : bcfg) (volumes : list nat) (e : ditem) (hits : list mchit) : Prop :=
    exists first labels, first_time (di_hits e) first /\ Forall2 (volume (di_names e)) volumes labels /\ hits = in_volumes labels (in_time (max_time c) first (di_hits e)).
  (** there is energy in the active volume *)
  Definition energetic (c : bcfg) (e : ditem) : Prop := exists hits h, hits_in c [ACTIVE] e hits /\ In h hits /\ ~ (he h == 0)%Q.
  (** the electrons that reach the anode, with the numbers drawn [d]; the model of DetsimModel.v, specified by C57 *)
  Definition electrons (d : det_draws) (hits : list mchit) (els : list electron) (dz : list Q) : Prop :=
    simulate_ielectrons (dd_poisson d) (dd_gauss d) sqrtQ (dd_decay d) (dd_x d) (dd_y d) (dd_z d) (dd_ph d) (wi p) (fano p) (drift_v p) (trans p) (longi p) (gain p) (conde p) hits = Ok (els, dz).
  Definition photons (els : list electron) : Z := fold_right Z.add 0%Z (map eph els).
  (** the electrons give light *)
  Definition lit (c : bcfg) (d : det_draws) (e : ditem) : Prop := exists hits els dz, hits_in c [ACTIVE] e hits /\ electrons d hits els dz /\ (0 < photons els)%Z.

  Definition ints (n : Z) (z : list (list Z)) : mat := {| cols := Z.to_nat n; rows := map (map inject_Z) z |}.
  (** the row for the trigger at sample [i] of the waveforms [P] of the PMTs and [S] of the SiPMs, the one number [j] of the event *)
  Definition det_row (c : bcfg) (e : ditem) (P S : mat) (j i : nat) (row : brow) : Prop :=
    let t := (qn i * pmt_wid c)%Q in
    let np := Qfloor (buffer_len c / pmt_wid c) in
    let ns := Qfloor (buffer_len c / sipm_wid c) in
    br_event row = (di_event e * Qceiling (max_time c / buffer_len c) + Z.of_nat j)%Z /\ br_nexus row = di_event e /\ br_time row = Qfloor (di_time e + t) /\
    exists tb, (tb <= t < tb + sipm_wid c)%Q /\
    window_of 0 (pmt_wid c) P (ints np (br_pmt row)) (tb - inject_Z (Qfloor (pre_trigger c / pmt_wid c)) * pmt_wid c) np /\
    window_of 0 (sipm_wid c) S (ints ns (br_sipm row)) (tb - inject_Z (Qfloor (pre_trigger c / sipm_wid c)) * sipm_wid c) ns.
  (** the times of the hits with the photoelectrons that each gives to the sensor [s]: the photons drawn, times the value of the table of light *)
  Definition s1_pes (d : det_draws) (values : list (list Q)) (s : nat) (hits : list mchit) : list (Q * Q) :=
    mapi (fun i h => (htime h, qn (dd_scint d i (he h / ws p)) * nth s (nth i values []) 0)%Q) hits.
  (** the counts of the PMTs: those of the S1 and of the S2, drawn with the mean light of each sample *)
  Definition pmt_counts (d : det_draws) (c : bcfg) (scintillating : list mchit) (els : list electron) (tmin len : Q) (n : nat) (P : mat) : Prop :=
    exists values, s1_lt (map hx scintillating) (map hy scintillating) (map hz scintillating) = Ok values /\
    is_mat P /\ cols P = n /\ List.length (rows P) = num_sensors lt_pmt /\
    forall s b, s < num_sensors lt_pmt -> b < n -> exists s1 s2,
      (s1 == s1_mean emitted tmin (pmt_wid c) len n b (s1_pes d values s scintillating))%Q /\
      (s2 == s2_mean lt_pmt (el_dv p) els tmin (pmt_wid c) n s b)%Q /\
      nth b (nth s (rows P) []) 0%Q = (qn (dd_s1 d s b s1) + qn (dd_s2 d s b s2))%Q.
  (** those of the SiPMs: only the S2 *)
  Definition sipm_counts (d : det_draws) (c : bcfg) (els : list electron) (tmin : Q) (m : nat) (S : mat) : Prop :=
    is_mat S /\ cols S = m /\ List.length (rows S) = num_sensors lt_sipm /\
    forall s b, s < num_sensors lt_sipm -> b < m -> exists s2, (s2 == s2_mean lt_sipm (el_dv p) els tmin (sipm_wid c) m s b)%Q /\ nth b (nth s (rows S) []) 0%Q = qn (dd_si d s b s2).
  (** the time covered begins with the first hit and lasts until the last electron has crossed the gap, or the longest time *)
  Definition covered (c : bcfg) (scintillating : list mchit) (els : list electron) (tmin len : Q) (n m : nat) : Prop :=
    (forall h, In h scintillating -> tmin <= htime h)%Q /\ (exists h, In h scintillating /\ htime h < tmin + sipm_wid c)%Q /\
    (len <= max_time c)%Q /\ (len == max_time c \/ forall e, In e els -> et e + el_gap_width lt_sipm / el_dv p <= tmin + len)%Q /\
    (len == qn n * pmt_wid c /\ len <= qn m * sipm_wid c /\ (qn m - 1) * sipm_wid c < len)%Q.
  (** the rows of an event: none without energy or light, and otherwise one for each trigger, in order of time; [k] samples in a buffer *)
  Definition simulated (k : nat) (c : bcfg) (d : det_draws) (e : ditem) (rows : list brow) : Prop :=
    (~ (energetic c e /\ lit c d e) -> rows = []) /\
    (energetic c e -> lit c d e -> exists ionising scintillating els dz tmin len n m P S trs,
      hits_in c [ACTIVE] e ionising /\ hits_in c [ACTIVE; BUFFER] e scintillating /\ electrons d ionising els dz /\
      covered c scintillating els tmin len n m /\ pmt_counts d c scintillating els tmin len n P /\ sipm_counts d c els tmin m S /\
      StronglySorted lt trs /\ (forall i, In i trs <-> is_trigger P (trigger_threshold c) (Z.of_nat k) i) /\
      Forall2 (fun ji row => det_row c e P S (fst ji) (snd ji) row) (combine (seq 0 (List.length trs)) trs) rows).

  (** the numbers drawn for an event are in range: no electron behind the anode, no negative number of photons, and counts that fit in 16 bits *)
  Definition draws_fit (c : bcfg) (d : det_draws) (e : ditem) : Prop :=
    (forall hits els dz, hits_in c [ACTIVE] e hits -> electrons d hits els dz -> (forall z, In z dz -> 0 <= z)%Q /\ forall x, In x els -> (0 <= eph x)%Z) /\
    (forall s b q q', (Z.of_nat (dd_s1 d s b q) + Z.of_nat (dd_s2 d s b q') < 32768)%Z) /\ (forall s b q, (Z.of_nat (dd_si d s b q) < 32768)%Z).
End Spec.
(** a file with the volumes named once and without negative energies *)
Definition good_hits (ACTIVE BUFFER : nat) (f : hfile) : Prop :=
  forall hits, hf_hits f = Some hits -> (exists a, volume (hf_names f) ACTIVE a) /\ (exists b, volume (hf_names f) BUFFER b) /\ forall h, In h hits -> (0 <= he (snd h))%Q.
