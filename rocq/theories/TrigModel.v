(** Model of the trigger of diomira: cities/diomira.py 95-107 and 180-249, with deconv_pmt (cities/components.py 431-446) and find_peaks (reco/peak_functions.py) *)
From Verif Require Import Base Arrays PeaksModel FiltersModel IreneModel.
Local Open Scope nat_scope.

(** a row of DataPMT: what irene uses of it, and the column ChannelID *)
Record daq_row := { dq_row : pmt_row; dq_channel : Z }.
(** trigger_params and s2_params of the configuration *)
Record trig_conf := { tg_channels : list Z; tg_conf : trigger_conf; tg_n_baseline : nat; tg_time : Q * Q; tg_length : Q * Q; tg_stride : Z; tg_rebin : Z }.

(** sensor_functions.py 12-13: convert_channel_id_to_IC_id: the position of each channel in the column ChannelID. pandas answers -1 for a
    channel that is not there (here the number of rows): diomira refuses such a channel before the position is used. Repeated channels in
    the database are refused by pandas with an exception that is not modelled. *)
Fixpoint position (c : Z) (l : list Z) : nat := match l with [] => 0 | x :: l => if (x =? c)%Z then 0 else S (position c l) end.
(** for diomira.py 207-249: emulate_trigger *)
Fixpoint distinct (l : list Z) : bool := match l with [] => true | x :: l => negb (existsb (Z.eqb x) l) && distinct l end.
(** for diomira.py 207-249: emulate_trigger *)
Definition channel_to_IC (db : list daq_row) (channels : list Z) : result (list nat) :=
  let ids := map dq_channel db in
  if distinct ids then Ok (map (fun c => position c ids) channels) else Err NotModelled.

(** peak_data[ID] = s2 (diomira.py 243) *)
Fixpoint dict_set (k : nat) (v : list peak) (d : list (nat * list peak)) : list (nat * list peak) :=
  match d with [] => [(k, v)] | (k', v') :: d => if k =? k' then (k, v) :: d else (k', v') :: dict_set k v d end.

Section Trigger.
  Variable butter : Q -> Q * Q * Q.
  Variable sqrt : Q -> Q.

  (** diomira.py 231-243: the peaks of the waveforms [cwfs], under the numbers [ids] (zip stops with the shortest). The sample of PMTs lasts
      25 ns and there are no SiPMs. The number -1 of the single PMT of these peaks is written 0. *)
  Definition pmt_sample : Q := 25.
  (** for diomira.py 207-249: emulate_trigger *)
  Definition sipm_sample : Q := 1000.
  (** for diomira.py 207-249: emulate_trigger *)
  Definition channel_peaks (min_height : Q) (s : pk_params) (cwf : list Q) : result (list peak) :=
    find_peaks {| cols := length cwf; rows := [cwf] |} (indices_above_threshold cwf min_height) (k_time s) (k_length s) (k_stride s) (k_rebin s)
               [0] [] pmt_sample sipm_sample None (fun m => ([], m)).
  (** for diomira.py 207-249: emulate_trigger *)
  Fixpoint peak_data (min_height : Q) (s : pk_params) (idcwfs : list (nat * list Q)) (d : list (nat * list peak)) : result (list (nat * list peak)) :=
    match idcwfs with
    | [] => Ok d
    | (i, cwf) :: l => rbind (channel_peaks min_height s cwf) (fun s2 => peak_data min_height s l (dict_set i s2 d))
    end.

  (** the rows used by deconv_pmt: its fourth argument is [mask], and diomira gives it the list of positions of the channels, so that
      the PMTs in use are taken when the list is not empty and all of them otherwise *)
  Definition masked_rows (ids : list nat) (db : list daq_row) : list pmt_row :=
    let rows := map dq_row db in
    if length ids =? 0 then map (fun d => {| pm_id := pm_id d; pm_active := true; pm_clean := pm_clean d; pm_blr := pm_blr d; pm_gain := pm_gain d |}) rows else rows.

  (** diomira.py 207-249: emulate_trigger: the configuration gives a function of the raw waveforms of an event *)
  Definition emulate_trigger (db : list daq_row) (c : trig_conf) : result (list (list Z) -> result (list (nat * list peak))) :=
    let min_height := fst (tc_height (tg_conf c)) in
    rbind (channel_to_IC db (tg_channels c)) (fun ids =>
    rbind (mk_minmax (fst (tg_time c)) (snd (tg_time c))) (fun time =>
    rbind (mk_minmax (fst (tg_length c)) (snd (tg_length c))) (fun len =>
    let s := {| k_time := time; k_length := len; k_stride := tg_stride c; k_rebin := tg_rebin c |} in
    if existsb (fun ch => negb (existsb (fun d => (dq_channel d =? ch)%Z && pm_active (dq_row d)) db)) (tg_channels c) then Err ValueError else
    Ok (fun rwfs =>
      rbind (deconv_pmt butter sqrt (masked_rows ids db) (tg_n_baseline c) rwfs) (fun cwfs =>
      peak_data min_height s (combine ids cwfs) []))))).

  (** diomira.py 95-107: whether an event passes. [None] is trigger_type = None, [Some (false, c)] a type other than "S2" *)
  Definition trigger_decision (db : list daq_row) (t : option (bool * trig_conf)) (rwfs : list (list Z)) : result bool :=
    rbind (select_trigger_filter (option_map (fun x => (fst x, tg_conf (snd x))) t)) (fun f =>
    match t with
    | None => Ok (f [])
    | Some (false, _) => Err ValueError
    | Some (true, c) => rbind (emulate_trigger db c) (fun emulate => rbind (emulate rwfs) (fun d => Ok (f d)))
    end).
End Trigger.
