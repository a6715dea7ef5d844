(** What C116 says *)
From Verif Require Import Base PeaksModel CorrModel CorrSpec KmapModel KmapSpec ZemModel TevModel TevSpec ZrunModel.
Local Open Scope Q_scope.

(** the rows of all the files, in order *)
Definition all_rows (files : list zfile) : list drow := flat_map (fun f => match zf_rows f with Some t => t | None => [] end) files.
Definition position (e : krevent) (p : Q * Q * Q) : Prop := exists t x y, kDT e = Some t /\ kX e = Some x /\ kY e = Some y /\ p = (t, x, y).
(** [v], if it is a number, is the energy of the row over that of the nearest bin of the map, times 41.55 keV *)
Definition corrected_with (m : list kbin) (e : krevent) (v : val) : Prop :=
  forall q, v = Some q -> exists p b mu s, position e p /\ nearest_bin m p b mu /\ kS2e e = Some s /\ q * mu == s * (4155 # 100).
(** a row with its first correction passes the cuts on the band, the energy and the time of the S2 *)
Definition early (c : zconf) (d : drow) (ec : val) : Prop :=
  (exists z t, dr_col d Zrms = Some z /\ kDT (dr_kr d) = Some t /\ z_low c t <= z * z < z_upp c t) /\ within ec (z_lx c) (z_hx c) /\ within (dr_s2t d) (z_ls c) (z_hs c).
Definition late (c : zconf) (d : drow) : Prop := within (dr_r d) 0 (z_rmax c) /\ within (kDT (dr_kr d)) (z_ld c) (z_hd c) /\ within (dr_col d Nsipm) (z_ln c) (z_hn c).
(** the values at the true positions of [flags] *)
Inductive picked {A} : list bool -> list A -> list A -> Prop :=
| picked_nil : picked [] [] []
| picked_yes f l s a : picked f l s -> picked (true :: f) (a :: l) (a :: s)
| picked_no f l s a : picked f l s -> picked (false :: f) (a :: l) s.
(** the row number [i] is selected: it passes the cuts, and it is the only row of its event that passes the early ones *)
Definition passes (c : zconf) (rows : list (drow * val)) (i : nat) : Prop :=
  exists d ec, nth_error rows i = Some (d, ec) /\ early c d ec /\ late c d /\
    forall j d' ec', nth_error rows j = Some (d', ec') -> dr_event d' = dr_event d -> early c d' ec' -> j = i.
(** the row is in the ranges of the map *)
Definition in_map_range (c : zconf) (e : krevent) : Prop :=
  exists x y t s, kX e = Some x /\ kY e = Some y /\ kDT e = Some t /\ kS2e e = Some s /\
    z_xy0 c <= x < z_xy1 c /\ z_xy0 c <= y < z_xy1 c /\ z_dt0 c <= t < z_dt1 c /\ z_s0 c <= s < z_s1 c.
(** the events in the bins of the map; bins without events have no number *)
Definition events_in_map (m : list map_row) : Q := sumQ (map (fun r => match nevents (r_fit r) with Some q => q | None => 0 end) m).
Definition total_events (t : list tevol) : nat := fold_right (fun r n => v_nevents r + n)%nat 0%nat t.
(** the row given to the time evolution: the values of the selected row, its first correction as Ec and the correction with the map of the run as Ec_2 *)
Definition row_with (r : drow * val) (ec2 : val) (e : tevent) : Prop :=
  te e = dr_kr (fst r) /\ te_event e = dr_event (fst r) /\ te_S1e e = dr_s1e (fst r) /\ te_col e = dr_col (fst r) /\ te_Ec e = snd r /\ te_Ec2 e = ec2.
