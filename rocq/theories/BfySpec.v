(** Vocabulary for C114 *)
From Coq Require Import String Qround.
From Verif Require ReadModel ReadSpec.
From Verif Require Import Base ConfigModel TablesModel SbinModel SbinSpec PeaksModel BuffersModel BuffersSpec FrunModel BfyModel.
Local Open Scope nat_scope.

Section Spec.
  Variable float : string -> option Q.
  Variable unit : string -> option Q.
  Variables pmt_db sipm_db : list nat.

  (** [h] is the light of the row [r] of the response: the time is the number of the bin in units of the width that the configuration declares for the type of the sensor *)
  Definition at_sensor (conf : list conf_row) (pos : list (Z * string)) (r : ReadModel.sresp) (h : simrow) : Prop :=
    Z.of_nat (sid h) = ReadModel.r_sensor r /\ scharge h = ReadModel.r_charge r /\
    exists name w, In (ReadModel.r_sensor r, name) pos /\ declared float unit conf name w /\ stime h = (w * inject_Z (ReadModel.r_bin r))%Q.
  (** the light of the event [ev] in the sensors that are [chosen], in the order of the file *)
  Definition light (conf : list conf_row) (f : nfile) (chosen : Z -> Prop) (ev : Z) (l : list simrow) : Prop :=
    exists own, ReadSpec.kept (fun r => ReadModel.r_event r = ev /\ chosen (ReadModel.r_sensor r)) (nf_resp f) own /\ Forall2 (at_sensor conf (nf_pos f)) own l.
  Definition a_pmt (i : Z) : Prop := exists j, In j pmt_db /\ i = Z.of_nat j.
  Definition a_sipm (i : Z) : Prop := exists j, In j sipm_db /\ i = Z.of_nat j.
  (** an event of the file, with a time in the period of its number *)
  Definition event_in (rate : Q) (f : nfile) (ev : Z) (e : simevent) : Prop :=
    sim_evt e = ev /\ ReadSpec.in_period rate ev (sim_time e) /\
    exists conf, nf_conf f = Some conf /\ light conf f a_pmt ev (sim_pmts e) /\ light conf f (fun i => ~ a_pmt i) ev (sim_sipms e).

  (** the waveforms of the sensors of the database, in that order: whole charges *)
  Definition array_of (data : list simrow) (db : list nat) (stop w t0 : Q) (n : Z) (z : list (list Z)) : Prop :=
    List.length z = List.length db /\ Forall (fun x => Z.of_nat (List.length x) = n) z /\
    forall j i x k v, nth_error db j = Some i -> nth_error z j = Some x -> nth_error x k = Some v -> v = Qfloor (sample_charge data i stop w (t0 + qn k * w)).
  (** the row of the file for the trigger at PMT sample [i], the one number [j] of the event *)
  Definition row_in_file (c : bcfg) (e : simevent) (p0 stopP stopS : Q) (j i : nat) (row : brow) : Prop :=
    let t := (p0 + qn i * pmt_wid c)%Q in
    br_event row = (sim_evt e * Qceiling (max_time c / buffer_len c) + Z.of_nat j)%Z /\ br_nexus row = sim_evt e /\ br_time row = Qfloor (sim_time e + t) /\
    exists tb, (tb <= t < tb + sipm_wid c)%Q /\
    array_of (sim_pmts e) pmt_db stopP (pmt_wid c) (tb - inject_Z (Qfloor (pre_trigger c / pmt_wid c)) * pmt_wid c) (Qfloor (buffer_len c / pmt_wid c)) (br_pmt row) /\
    array_of (sim_sipms e) sipm_db stopS (sipm_wid c) (tb - inject_Z (Qfloor (pre_trigger c / sipm_wid c)) * sipm_wid c) (Qfloor (buffer_len c / sipm_wid c)) (br_sipm row).
  Definition detected (e : simevent) : Prop := sim_pmts e <> [] /\ sim_sipms e <> [].
  (** the rows of an event: none if one of the planes has no light, and otherwise one for each trigger, in order of time *)
  Definition rows_of (c : bcfg) (e : simevent) (rows : list brow) : Prop :=
    (~ detected e -> rows = []) /\
    (detected e -> exists trs p0 n stopP stopS,
       (stopP == p0 + qn n * pmt_wid c)%Q /\ all_read c e p0 stopP stopS /\ StronglySorted lt trs /\ (forall i, In i trs <-> fires c e p0 stopP n i) /\
       Forall2 (fun ji row => row_in_file c e p0 stopP stopS (fst ji) (snd ji) row) (combine (seq 0 (List.length trs)) trs) rows).
  (** a row of a filter: the number of the event, and whether it has [P] *)
  Definition flagged {A} (number : A -> Z) (P : A -> Prop) (a : A) (r : Z * bool) : Prop := fst r = number a /\ (snd r = true <-> P a).

  (** a simulation file that can be read: the sensors with light are listed once, are of the database, and have a positive width; the PMTs of the file are in
      the database; no sensor collects in an event more charge than fits in 16 bits *)
  Record good_sim (is_pmt_name : string -> bool) (f : nfile) (conf : list conf_row) : Prop := {
    si_conf : nf_conf f = Some conf;
    si_read : readable float unit conf;
    si_once : NoDup (map fst (nf_pos f));
    si_pmts : forall id name, In (id, name) (nf_pos f) -> is_pmt_name name = true -> a_pmt id;
    si_known : forall r, In r (nf_resp f) -> exists name w, In (ReadModel.r_sensor r, name) (nf_pos f) /\ declared float unit conf name w /\ plain name /\ ~ within "Geom" name /\ (0 < w)%Q;
    si_sensor : forall r, In r (nf_resp f) -> a_pmt (ReadModel.r_sensor r) \/ a_sipm (ReadModel.r_sensor r);
    si_bins : forall r, In r (nf_resp f) -> (0 <= ReadModel.r_bin r)%Z /\ (0 <= ReadModel.r_charge r)%Q;
    si_fits : forall ev i, (sumF ReadModel.r_charge (filter (fun r => (ReadModel.r_event r =? ev)%Z && (ReadModel.r_sensor r =? i)%Z) (nf_resp f)) < 32768)%Q }.

  (** the sampling periods of the run: those of the first file that has a configuration *)
  Definition periods (files : list nfile) (pw sw : Q) : Prop :=
    exists without g conf more, files = without ++ g :: more /\ (forall u, In u without -> nf_conf u = None) /\ nf_conf g = Some conf /\ readable float unit conf /\
      first_of_type float unit "Pmt" conf pw /\ first_of_type float unit "SiPM" conf sw /\ forall name w, declared float unit conf name w -> ~ within "Geom" name -> (0 < w)%Q.
End Spec.
(** the time that the buffers of an event can cover: the one of the configuration, but not less than a buffer *)
Definition longest (b : bconf) : Q := if Qle_bool (cf_buffer b) (cf_max b) then cf_max b else cf_buffer b.
(** a whole number of microseconds *)
Definition whole (mus t : Q) : Prop := exists n, (t / mus == inject_Z n)%Q.
(** the event of the file with the row of a trigger *)
Definition as_event (run : Z) (r : brow) : mcrd_event :=
  {| w_pmt := map (map inject_Z) (br_pmt r); w_sipm := map (map inject_Z) (br_sipm r); w_run := run; w_event := (br_event r, inject_Z (br_time r)); w_trg := None; w_chn := None |}.
