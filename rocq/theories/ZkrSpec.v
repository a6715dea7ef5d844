(** What C128 says *)
From Verif Require Import Base PeaksModel PmapioModel FiltersModel FiltersSpec XyModel KrModel KrSpec PreadModel DorModel DorSpec.
From Verif Require Import KmapModel TevModel ZrunModel.
Local Open Scope Q_scope.

Section Spec.
  Variables (xys : list (Q * Q)) (v : Q) (charges : peak -> list Q) (rms : peak -> Q) (sqrt : Q -> Q) (atan : Q -> Q -> Q) (qthr : Q).
  (** the row [d] is that of the S1 [p1] and the S2 [p2] of the event [it], with [k] the position of the S2 *)
  Definition row_of_peaks (it : pitem) (p1 p2 : peak) (k : krcluster) (d : drow) : Prop :=
    position_of xys charges sqrt atan qthr p2 (Some k) /\
    dr_event d = pi_event it /\ ktime (dr_kr d) = pi_time it * (1 # 1000) /\
    dr_s1e d = total_energy p1 /\ dr_col d S1w = Some (peak_width p1) /\ dr_col d S1h = Some (height p1) /\
    kS2e (dr_kr d) = Some (total_energy p2) /\ dr_s2t d = Some (time_at_max_energy p2) /\ dr_col d S2w = Some (peak_width p2 / 1000) /\ dr_col d S2h = Some (height p2) /\
    kX (dr_kr d) = k_X k /\ kY (dr_kr d) = k_Y k /\ dr_r d = k_R k /\ dr_col d S2q = k_Q k /\ dr_col d Nsipm = k_nsipm k /\ dr_col d Xrms = k_Xrms k /\ dr_col d Yrms = k_Yrms k /\
    dr_col d Zrms = Some (rms p2 / 1000) /\
    kDT (dr_kr d) = Some ((time_at_max_energy p2 - time_at_max_energy p1) * (1 / 1000)) /\ dr_z d = Some ((time_at_max_energy p2 - time_at_max_energy p1) * v).
  (** the row [d] is that of a good S1 and a good S2, with a position, of an accepted event of the inputs *)
  Definition krypton_of (c : limits) (inputs : list (list pitem)) (d : drow) : Prop :=
    exists items it p1 p2 k, In items inputs /\ In it items /\ accepted c (pi_pmap it) /\
      In p1 (s1s (pi_pmap it)) /\ good_s1 c p1 /\ In p2 (s2s (pi_pmap it)) /\ good_s2 c p2 /\ row_of_peaks it p1 p2 k d.
End Spec.
