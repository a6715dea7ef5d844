(** Vocabulary for C98 *)
From Verif Require Import Base PeaksModel PeaksSpec CalibModel FiltersModel FiltersSpec IreneModel IreneSpec TrigModel.
Local Open Scope nat_scope.

(** a configuration that is not refused: ranges in order, channels of PMTs in use, and different channels in the database *)
Record good_trigger (db : list daq_row) (c : trig_conf) : Prop := {
  gt_db : NoDup (map dq_channel db);
  gt_channels : forall ch, In ch (tg_channels c) -> exists d, In d db /\ dq_channel d = ch /\ pm_active (dq_row d) = true;
  gt_time : (fst (tg_time c) <= snd (tg_time c))%Q;
  gt_length : (fst (tg_length c) <= snd (tg_length c))%Q;
  gt_height : (fst (tc_height (tg_conf c)) <= snd (tc_height (tg_conf c)))%Q;
  gt_charge : (fst (tc_charge (tg_conf c)) <= snd (tc_charge (tg_conf c)))%Q;
  gt_width : (fst (tc_width (tg_conf c)) <= snd (tc_width (tg_conf c)))%Q;
  gt_ratio : (0 <= tc_ratio (tg_conf c))%Q }.
(** raw waveforms that can be deconvolved: one for each PMT of the database *)
Record good_waveforms (db : list daq_row) (n_baseline ns : nat) (rwfs : list (list Z)) : Prop := {
  gw_len : length rwfs = length db;
  gw_some : 0 < length db;
  gw_ns : Forall (fun w => length w = ns) rwfs;
  gw_400 : 400 <= ns;
  gw_blr : forall d, In d db -> ~ (pm_blr (dq_row d) == 0)%Q;
  gw_base : 0 < n_baseline }.

(** the deconvolved waveform of a PMT *)
Definition deconvolved_wf (butter : Q -> Q * Q * Q) (sqrt : Q -> Q) (n_baseline : nat) (d : pmt_row) (w : list Z) (c : list Q) : Prop :=
  let '(b0, b1, a1) := butter (pm_clean d) in
  let first := filter (fun x => negb (x =? 0)%Z) (firstn n_baseline w) in
  let base := (sumF inject_Z first / inject_Z (Z.of_nat (length first)))%Q in
  exists inv, Forall2 (fun z y => y == base - inject_Z z)%Q w inv /\ deconvolve_signal b0 b1 a1 sqrt (pm_blr d) 5 inv = Ok c.

(** the S2 candidates of a deconvolved waveform: the groups of samples above the least height, of the length and at the times of the configuration *)
Definition candidates (c : trig_conf) (cwf : list Q) (pks : list peak) : Prop :=
  exists idx, samples_above (length cwf) (fun k => nth k cwf 0%Q) (fst (tc_height (tg_conf c))) idx /\
  peaks_of {| k_time := {| mn := fst (tg_time c); mx := snd (tg_time c) |}; k_length := {| mn := fst (tg_length c); mx := snd (tg_length c) |}; k_stride := tg_stride c; k_rebin := tg_rebin c |}
           25 idx (s1_of {| cols := length cwf; rows := [cwf] |} 25 (tg_rebin c) [0]) pks.
(** some sample is above the least height *)
Definition has_signal (c : trig_conf) (cwf : list Q) : Prop := exists k, k < length cwf /\ (fst (tc_height (tg_conf c)) < nth k cwf 0)%Q.
