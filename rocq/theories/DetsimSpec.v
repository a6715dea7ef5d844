(** Specification of the simulated waveforms, independent of the functions of the model *)
From Verif Require Import Base PeaksModel DetsimModel.
Local Open Scope Q_scope.

(** the part of the content of bin [h] of a histogram that is spread into bin [j]: an equal share for each of the [l] bins before it and the [r] bins from it on;
    negative contents and the first [l] bins are not spread *)
Definition share (hist : list Q) (l r h j : nat) : Q :=
  if ((l <=? h) && (h - l <=? j) && (j <? h + r))%nat then Qmax 0 (nth h hist 0) / qn (l + r) else 0.
(** the content that can be kept: positive contents *)
Definition positive (q : Q) : Q := Qmax 0 q.

(** the light that a sensor sees from an electron crossing the k-th part of the EL gap *)
Definition light (lt : light_table) (s : nat) (e : electron) (k : nat) : Q :=
  match values lt (ex e) (ey e) s with Some f => nth k f 0 * inject_Z (eph e) | None => 0 end.
(** the time at which the electron is in the middle of the k-th part of the EL gap *)
Definition part_time (lt : light_table) (el_dv : Q) (e : electron) (k : nat) : Q :=
  et e + (qn k + (1#2)) * (el_gap_width lt / qn (length (zbins lt))) / el_dv.
(** the light in the time interval from a to b (not included) *)
Definition light_between (lt : light_table) (el_dv : Q) (els : list electron) (s : nat) (a b : Q) : Q :=
  sumF (fun e => sumF (fun k => let t := part_time lt el_dv e k in if Qle_bool a t && Qltb t b then light lt s e k else 0)
                      (seq 0 (length (zbins lt)))) els.
(** all the light seen by a sensor *)
Definition all_light (lt : light_table) (els : list electron) (s : nat) : Q :=
  sumF (fun e => sumF (light lt s e) (seq 0 (length (zbins lt)))) els.
(** the time that an electron takes to cross a part of the gap, in bins of the waveform *)
Definition part_bins (lt : light_table) (el_dv bin : Q) : Q := el_gap_width lt / qn (length (zbins lt)) / el_dv / bin.

(** usable parameters *)
Record usable (lt : light_table) (el_dv bin len : Q) : Prop := {
  u_bin : 0 < bin; u_dv : 0 < el_dv; u_gap : 0 < el_gap_width lt; u_parts : (0 < length (zbins lt))%nat; u_len : 0 <= len }.

(** the hit that each electron comes from: each hit as many times as it has electrons, in order *)
Definition owners {A} (hits : list A) (n : list nat) : list A := flat_map (fun p => repeat (fst p) (snd p)) (combine hits n).
