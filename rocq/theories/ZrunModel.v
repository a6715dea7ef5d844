(** Model of a run of zemrude: cities/zemrude.py 38-282, with icaros/selection_functions.py 99-170 over whole rows and icaros/krmap_functions.py 408-453 and 696-727 *)
From Verif Require Import Base Arrays PeaksModel WfmModel DbModel CorrModel KmapModel ZemModel TevModel.
Local Open Scope Q_scope.

(** a row of /DST/Events: the columns used; nan is [None] *)
Record drow := { dr_kr : krevent; dr_event : Z; dr_s1e : Q; dr_s2t : val; dr_r : val; dr_z : val; dr_col : column -> val }.
(** an input file: the rows of /DST/Events and the first run number of /Run/runInfo, when they are there *)
Record zfile := { zf_rows : option (list drow); zf_run : option Z }.
(** dst_io.py 49-51: load_dsts; a missing table is NoSuchNodeError, and pandas.concat of no table a ValueError *)
Definition load_dsts (files : list zfile) : result (list drow) :=
  match files with
  | [] => Err ValueError
  | _ => rbind (rmap (fun f => match zf_rows f with Some t => Ok t | None => Err (Other 36) end) files) (fun ts => Ok (List.concat ts))
  end.
(** zemrude.py 38-45: concatenated_dsts_from_files; components.py 447-451: get_run_number *)
Definition source (files : list zfile) : result (list drow * Z) :=
  rbind (load_dsts files) (fun df =>
  match files with {| zf_run := Some r |} :: _ => Ok (df, r) | {| zf_run := None |} :: _ => Err (Other 36) | [] => Err IndexError end).

(** the columns that the selections look at, of a row with its column Ec *)
Definition view (r : drow * val) : krow :=
  {| k_event := dr_event (fst r); k_zrms := dr_col (fst r) Zrms; k_dt := kDT (dr_kr (fst r)); k_ec := snd r; k_s2t := dr_s2t (fst r); k_r := dr_r (fst r); k_nsipm := dr_col (fst r) Nsipm |}.
Section Select.
  Notation trow := (drow * val)%type.
  (** selection_functions.py 36-66: select_var_inrange, keeping whole rows *)
  Definition select_var (l : list trow) (col low high : krow -> val) : result (list trow * Q) :=
    let sel := filter (fun r => match low (view r), high (view r) with Some a, Some b => in_range_val (col (view r)) a b | _, _ => false end) l in
    rbind (eff_of_selection (map view l) (map view sel)) (fun e => Ok (sel, e)).
  (** selection_functions.py 69-96: select_1S1_1S2 *)
  Definition select_one (l : list trow) : result (list trow * Q) :=
    let sel := filter (fun r => (length (filter (fun r' => (k_event (view r') =? k_event (view r))%Z) l) =? 1)%nat) l in
    rbind (eff_of_selection (map view l) (map view sel)) (fun e => Ok (sel, e)).
  (** selection_functions.py 99-170: apply_selections *)
  Definition select_rows (kdst : list trow) (dtrms2_low dtrms2_upp : Q -> Q) (low_xrays high_xrays low_S2t high_S2t R_max low_DT high_DT low_nsipm high_nsipm : Q) : result (list trow * efficiencies) :=
    let const (q : Q) (r : krow) : val := Some q in
    rbind (select_var kdst (fun r => vmap (fun z => z * z) (k_zrms r)) (fun r => vmap dtrms2_low (k_dt r)) (fun r => vmap dtrms2_upp (k_dt r))) (fun '(df, e1) =>
    rbind (select_var df k_ec (const low_xrays) (const high_xrays)) (fun '(df, e2) =>
    rbind (select_var df k_s2t (const low_S2t) (const high_S2t)) (fun '(df, e3) =>
    rbind (select_one df) (fun '(df, e4) =>
    rbind (select_var df k_r (const 0) (const R_max)) (fun '(df, e5) =>
    rbind (select_var df k_dt (const low_DT) (const high_DT)) (fun '(df, e6) =>
    rbind (select_var df k_nsipm (const low_nsipm) (const high_nsipm)) (fun '(df, e7) =>
    rbind (eff_of_selection (map view kdst) (map view df)) (fun t =>
    Ok (df, {| eff_band := e1; eff_xrays := e2; eff_s1s2 := e4; eff_s2t := e3; eff_rmax := e5; eff_dt := e6; eff_nsipm := e7; eff_total := t |}))))))))).
End Select.

(** pandas unique: the values in the order in which they appear *)
Fixpoint unique (l : list nat) : list nat := match l with [] => [] | x :: l => x :: filter (fun y => negb (y =? x)%nat) (unique l) end.
(** the table metadata; of map_shape, the number of rows *)
Record meta := { m_rmax : val; m_zmax : val; m_bin_dt : Q; m_bin_x : Q; m_bin_y : Q; m_dtbins : list nat; m_xbins : list nat; m_ybins : list nat;
  m_nbins_dt : nat; m_nbins_x : nat; m_nbins_y : nat; m_xy_range : Q * Q; m_dt_range : Q * Q; m_shape : nat; m_extent : nat }.
(** krmap_functions.py 408-453: compute_metadata; bin sizes with no bins raise before, in compute_3D_map *)
Definition compute_metadata (df : list (drow * val)) (krmap : list map_row) (xy0 xy1 dt0 dt1 : Q) (xy_nbins dt_nbins : nat) : meta :=
  {| m_rmax := maxQ (present (map (fun r => dr_r (fst r)) df)); m_zmax := maxQ (present (map (fun r => dr_z (fst r)) df));
     m_bin_dt := (dt1 - dt0) / qn dt_nbins; m_bin_x := (xy1 - xy0) / qn xy_nbins; m_bin_y := (xy1 - xy0) / qn xy_nbins;
     m_dtbins := unique (map (fun r => fst (fst (r_key r))) krmap); m_xbins := unique (map (fun r => snd (fst (r_key r))) krmap); m_ybins := unique (map (fun r => snd (r_key r)) krmap);
     m_nbins_dt := dt_nbins; m_nbins_x := xy_nbins; m_nbins_y := xy_nbins; m_xy_range := (xy0, xy1); m_dt_range := (dt0, dt1);
     m_shape := length df; m_extent := length df |}.

(** the configuration *)
Record zconf := { z_method : norm_method; z_xy : option region; z_low : Q -> Q; z_upp : Q -> Q; z_lx : Q; z_hx : Q; z_ls : Q; z_hs : Q; z_rmax : Q; z_ld : Q; z_hd : Q; z_ln : Q; z_hn : Q;
  z_xy0 : Q; z_xy1 : Q; z_dt0 : Q; z_dt1 : Q; z_n : nat; z_nz : nat; z_s0 : Q; z_s1 : Q; z_fit : fit_name; z_min_events : nat; z_nbins : nat;
  z_hours : Q; z_x0 : Q; z_y0 : Q; z_shape : region_shape; z_size : Q; z_dtbins : list Q; z_s1lo : Q; z_s1hi : Q; z_bins : list Q; z_error : bool }.
(** the output file, in the order of load_map (correction_functions.py 222-228) *)
Record zout := { zo_map : list map_row; zo_evol : list tevol; zo_eff : efficiencies; zo_meta : meta }.

Section Run.
  (** square roots, sqrt(2 pi), sqrt(8 log 2), standard deviations, s over the root of n, fits of gaussians, exponentials and sigmoids, griddata *)
  Variable sqrt : Q -> Q.
  Variables root2pi fwhm : Q.
  Variables std std0 : list Q -> val.
  Variable over_sqrt : val -> nat -> val.
  Variable fit_bin : list Q -> nat -> option (val * val * val * val).
  Variable fit_expo : list Q -> list Q -> val -> result (Q * Q * (val * val)).
  Variable fit_gauss : list Q -> list nat -> Q * Q * Q -> option (list Q) -> result ((Q * Q * Q) * (val * val * val) * val).
  Variable fit_sigmoid : list Q -> list nat -> nat * Q * Q * nat -> list Q -> result (Q * val).
  Variable nearest : list (Q * Q * Q) -> Q * Q * Q -> nat.

  (** the rows given to the time evolution: those of the selection, with the columns Ec and Ec_2 *)
  Definition trow_of (r : drow * val * val) : tevent :=
    let '(d, ec, ec2) := r in {| te := dr_kr d; te_event := dr_event d; te_S1e := dr_s1e d; te_Ec := ec; te_Ec2 := ec2; te_col := dr_col d |}.
  (** zemrude.py 48-52: apply_map, the column Ec; [pre] is the map that pandas reads from the file pre_map *)
  Definition apply_map (c : zconf) (pre : list kbin) (df : list drow) : result (list val) :=
    rbind (rmap (fun d => data_point (dr_kr d)) df) (apply_3Dmap nearest pre (z_method c) (z_xy c) (Some keV)).
  (** zemrude.py 112-282: zemrude. The plots are left out. *)
  Definition zemrude (c : zconf) (pre : list kbin) (files : list zfile) : result zout :=
    match z_fit c with
    | OtherFit => Err ValueError
    | _ =>
      rbind (source files) (fun '(df, run) =>
      rbind (apply_map c pre df) (fun ec =>
      rbind (select_rows (combine df ec) (z_low c) (z_upp c) (z_lx c) (z_hx c) (z_ls c) (z_hs c) (z_rmax c) (z_ld c) (z_hd c) (z_ln c) (z_hn c)) (fun '(sel, eff) =>
      let krs := map (fun r => dr_kr (fst r)) sel in
      rbind (create_selfmap std over_sqrt fit_bin (z_xy0 c) (z_xy1 c) (z_dt0 c) (z_dt1 c) (z_n c) (z_nz c) (z_s0 c) (z_s1 c) (z_fit c) (z_nbins c) (z_min_events c) krs) (fun krmap =>
      rbind (apply_selfmap nearest (z_method c) (z_xy c) (Some keV) krs krmap) (fun ec2 =>
      rbind (get_time_evol sqrt root2pi fwhm std std0 fit_expo fit_gauss fit_sigmoid (z_hours c * 3600) run (z_x0 c) (z_y0 c) (z_shape c) (z_size c) (z_dtbins c) (z_s1lo c) (z_s1hi c) (z_bins c) (z_error c)
               (map trow_of (combine sel ec2))) (fun evol =>
      Ok {| zo_map := krmap; zo_evol := evol; zo_eff := eff;
            zo_meta := compute_metadata sel krmap (z_xy0 c) (z_xy1 c) (z_dt0 c) (z_dt1 c) (z_n c) (z_nz c) |}))))))
    end.
End Run.
