(** Specification of an event of detsim: the hits that count, the mean light of each sample and the buffers *)
From Coq Require Import Qround.
From Verif Require Import Base PeaksModel BuffersModel BuffersSpec DetsimModel DetsimSpec S1Spec.
Local Open Scope Q_scope.

(** the hits of the event less than [max_time] after its first one *)
Definition first_time (hits : list mchit) (t : Q) : Prop := (exists h, In h hits /\ t == htime h) /\ forall h, In h hits -> t <= htime h.
Definition in_time (max_time first : Q) (hits : list mchit) : list mchit := filter (fun h => Qltb (htime h - first) max_time) hits.
Definition in_volumes (labels : list nat) (hits : list mchit) : list mchit := filter (fun h => existsb (Nat.eqb (hlabel h)) labels) hits.

(** the mean S2 light of sensor [s] in sample [b] of [n]: the light emitted in the time of the sample, shared by the samples around it when
    a part of the gap takes more than one sample to cross *)
Definition s2_mean (lt : light_table) (el_dv : Q) (els : list electron) (tmin width : Q) (n s b : nat) : Q :=
  let emitted_in h := light_between lt el_dv els s (tmin + qn h * width) (tmin + qn (S h) * width) in
  if Qle_bool (part_bins lt el_dv width) 1 then emitted_in b
  else let m := Z.to_nat (Qceiling (part_bins lt el_dv width)) in
       let l := (m / 2)%nat in
       sumF (fun h => if ((l <=? h) && (h - l <=? b) && (b <? h + (m - l)))%nat then positive (emitted_in h) / qn m else 0) (seq 0 n).
(** the mean S1 light of a PMT in sample [b] of [n], for hits with a time and a number of photoelectrons *)
Definition s1_mean (emitted : Q -> Q) (tmin width len : Q) (n b : nat) (hits : list (Q * Q)) : Q :=
  sumF (fun i => light_in tmin width n i hits * fraction emitted width (emission_bins len width) (b - i)) (seq 0 (S b)).

(** the row written for the trigger at sample [i] of the waveforms [P] of PMTs and [S] of SiPMs, that begin at time 0 *)
Definition row_of (c : bcfg) (number : Z) (timestamp : Q) (P S : mat) (i : nat) (row : out_row) : Prop :=
  let t := qn i * pmt_wid c in
  nexus_evt row = number /\ time_stamp row == timestamp + t /\
  exists tb, tb <= t < tb + sipm_wid c /\
  window_of 0 (pmt_wid c) P (eng row) (tb - inject_Z (Qfloor (pre_trigger c / pmt_wid c)) * pmt_wid c) (Qfloor (buffer_len c / pmt_wid c)) /\
  window_of 0 (sipm_wid c) S (trk row) (tb - inject_Z (Qfloor (pre_trigger c / sipm_wid c)) * sipm_wid c) (Qfloor (buffer_len c / sipm_wid c)).

(** light tables that can be used: some sensors, and no negative factors *)
Record good_table (lt : light_table) : Prop := {
  gt_gap : 0 < el_gap_width lt; gt_parts : (0 < length (zbins lt))%nat; gt_sensors : (0 < num_sensors lt)%nat;
  gt_factors : forall x y s f q, values lt x y s = Some f -> In q f -> 0 <= q }.
