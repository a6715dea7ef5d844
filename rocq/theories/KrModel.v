(** Model of the pointlike events: cities/components.py build_pointlike_event and evm/event_model.py KrEvent *)
From Verif Require Import Base PeaksModel PmapioModel FiltersModel.
Local Open Scope nat_scope.

(** a number that may be NaN *)
Notation num := (option Q) (only parsing).
(** types/ic_types.py 8 *)
Definition NN : num := Some (- (999999 # 1))%Q.

(** the attributes of a cluster that are read by build_pointlike_event; the square roots and the angle are not computed *)
Record krcluster := { k_nsipm : num; k_Q : num; k_X : num; k_Y : num; k_Xrms : num; k_Yrms : num; k_R : num; k_Phi : num }.
(** types/ic_types.py 14-17: NNN() *)
Definition NNN : krcluster := {| k_nsipm := NN; k_Q := NN; k_X := NN; k_Y := NN; k_Xrms := NN; k_Yrms := NN; k_R := NN; k_Phi := NN |}.

(** event_model.py 319-345. [e_qmax] is None when it has been replaced by the number 0. *)
Record krevent := {
  e_event : Z; e_time : Q; e_nS1 : nat; e_S1w : list num; e_S1h : list num; e_S1e : list num; e_S1t : list num;
  e_nS2 : nat; e_S2w : list num; e_S2h : list num; e_S2e : list num; e_S2q : list num; e_S2t : list num; e_qmax : option (list num);
  e_Nsipm : list num; e_DT : list (list num); e_Z : list (list num); e_X : list num; e_Y : list num; e_R : list num; e_Phi : list num;
  e_Xrms : list num; e_Yrms : list num; e_Zrms : list num }.

(** event_model.py 347-362: fill_defaults *)
Definition fill_defaults (e : krevent) : krevent :=
  let no1 := e_nS1 e =? 0 in let no2 := e_nS2 e =? 0 in
  let d1 l := if no1 then [None] else l in let d2 l := if no2 then [None] else l in
  let d12 l := if no1 || no2 then repeat (repeat None (Nat.max (e_nS1 e) 1)) (Nat.max (e_nS2 e) 1) else l in
  {| e_event := e_event e; e_time := e_time e; e_nS1 := e_nS1 e; e_S1w := d1 (e_S1w e); e_S1h := d1 (e_S1h e); e_S1e := d1 (e_S1e e); e_S1t := d1 (e_S1t e);
     e_nS2 := e_nS2 e; e_S2w := d2 (e_S2w e); e_S2h := d2 (e_S2h e); e_S2e := d2 (e_S2e e); e_S2q := d2 (e_S2q e); e_S2t := d2 (e_S2t e);
     e_qmax := if no2 then None else e_qmax e; e_Nsipm := e_Nsipm e; e_DT := d12 (e_DT e); e_Z := d12 (e_Z e); e_X := d2 (e_X e); e_Y := d2 (e_Y e);
     e_R := d2 (e_R e); e_Phi := d2 (e_Phi e); e_Xrms := e_Xrms e; e_Yrms := e_Yrms e; e_Zrms := d2 (e_Zrms e) |}.

(** a row of KrTable, evm/nh5.py 125-155. The conversion of the number of SiPMs to an unsigned integer of 16 bits is not modelled. *)
Record krrow := {
  w_event : Z; w_time : Q; w_s1_peak : nat; w_s2_peak : nat; w_nS1 : nat; w_nS2 : nat; w_S1w : num; w_S1h : num; w_S1e : num; w_S1t : num;
  w_S2w : num; w_S2h : num; w_S2e : num; w_S2q : num; w_S2t : num; w_qmax : num; w_Nsipm : num; w_DT : num; w_Z : num; w_Zrms : num;
  w_X : num; w_Y : num; w_R : num; w_Phi : num; w_Xrms : num; w_Yrms : num }.

(** list indexing *)
Definition item {A} (l : list A) (i : nat) : result A := match nth_error l i with Some a => Ok a | None => Err IndexError end.

(** event_model.py 373-403: the body of the loops *)
Definition kr_row (e : krevent) (i j : nat) : result krrow :=
  rbind (item (e_S1w e) i) (fun s1w => rbind (item (e_S1h e) i) (fun s1h => rbind (item (e_S1e e) i) (fun s1e => rbind (item (e_S1t e) i) (fun s1t =>
  rbind (item (e_S2w e) j) (fun s2w => rbind (item (e_S2h e) j) (fun s2h => rbind (item (e_S2e e) j) (fun s2e => rbind (item (e_S2q e) j) (fun s2q =>
  rbind (item (e_S2t e) j) (fun s2t => rbind (match e_qmax e with Some l => item l j | None => Err TypeError end) (fun qm =>
  rbind (item (e_Nsipm e) j) (fun ns => rbind (rbind (item (e_DT e) j) (fun l => item l i)) (fun dt => rbind (rbind (item (e_Z e) j) (fun l => item l i)) (fun z =>
  rbind (item (e_Zrms e) j) (fun zr => rbind (item (e_X e) j) (fun x => rbind (item (e_Y e) j) (fun y => rbind (item (e_R e) j) (fun r =>
  rbind (item (e_Phi e) j) (fun phi => rbind (item (e_Xrms e) j) (fun xr => rbind (item (e_Yrms e) j) (fun yr =>
  Ok {| w_event := e_event e; w_time := e_time e;
        w_s1_peak := if e_nS1 e =? 0 then u16max else overflow_protection i u16max;
        w_s2_peak := if e_nS2 e =? 0 then u16max else overflow_protection j u16max;
        w_nS1 := e_nS1 e; w_nS2 := e_nS2 e; w_S1w := s1w; w_S1h := s1h; w_S1e := s1e; w_S1t := s1t; w_S2w := s2w; w_S2h := s2h; w_S2e := s2e; w_S2q := s2q;
        w_S2t := s2t; w_qmax := qm; w_Nsipm := ns; w_DT := dt; w_Z := z; w_Zrms := zr; w_X := x; w_Y := y; w_R := r; w_Phi := phi; w_Xrms := xr; w_Yrms := yr |})))))))))))))))))))).

(** event_model.py 364-404: store; the rows appended to the table *)
Definition kr_store (e : krevent) : result (list krrow) :=
  let s1_peaks := if e_nS1 e =? 0 then [0] else seq 0 (e_nS1 e) in
  let s2_peaks := if e_nS2 e =? 0 then [0] else seq 0 (e_nS2 e) in
  let e := fill_defaults e in
  rmap (fun '(i, j) => kr_row e i j) (list_prod s1_peaks s2_peaks).

Section Build.
  (** the positions of the SiPMs in the database *)
  Variable sipm_xys : list (Q * Q).
  Variable drift_v : Q.
  (** evm/pmaps.py 106-124 sipm_charge_array(noise, charge_type, single_point=True) and 62-69 rms *)
  Variable charges : peak -> list Q.
  Variable rms : peak -> Q.
  (** components.py 938-955: the reconstruction; Ok None is an XYRecoFail *)
  Variable reco : list (Q * Q) -> list Q -> result (option (list krcluster)).

  (** zip and continue *)
  Definition chosen (flags : list bool) (l : list peak) : list peak := map snd (filter fst (combine flags l)).

  (** components.py 977-984: the S1s; units.mus = 1000 ns *)
  Definition mus : Q := 1000 # 1.
  (** for components.py 974-1026: build_pointlike_event *)
  Definition add_s1 (e : krevent) (p : peak) : krevent :=
    {| e_event := e_event e; e_time := e_time e; e_nS1 := e_nS1 e + 1; e_S1w := e_S1w e ++ [Some (peak_width p)]; e_S1h := e_S1h e ++ [Some (height p)];
       e_S1e := e_S1e e ++ [Some (total_energy p)]; e_S1t := e_S1t e ++ [Some (time_at_max_energy p)];
       e_nS2 := e_nS2 e; e_S2w := e_S2w e; e_S2h := e_S2h e; e_S2e := e_S2e e; e_S2q := e_S2q e; e_S2t := e_S2t e; e_qmax := e_qmax e;
       e_Nsipm := e_Nsipm e; e_DT := e_DT e; e_Z := e_Z e; e_X := e_X e; e_Y := e_Y e; e_R := e_R e; e_Phi := e_Phi e; e_Xrms := e_Xrms e; e_Yrms := e_Yrms e; e_Zrms := e_Zrms e |}.

  (** components.py 958-962: compute_z_and_dt *)
  Definition compute_z_and_dt (t2 : Q) (t1 : list num) : list num * list num :=
    (map (option_map (fun t => (t2 - t) * drift_v))%Q t1, map (option_map (fun t => (t2 - t) * (1 / mus)))%Q t1).

  (** components.py 998: sipm_xys[peak.sipms.ids]; without SiPMs the array of the ids is an empty array of floats,
      which is no index *)
  Definition positions (ids : list nat) : result (list (Q * Q)) :=
    match ids with [] => Err IndexError | _ => fancy sipm_xys ids end.

  (** components.py 998-1007: max(qs), clusters[0] *)
  Definition list_max (l : list Q) : result Q := match l with [] => Err ValueError | _ => Ok (maximum l) end.
  (** for components.py 988-1024 *)
  Definition locate (p : peak) (t1 : list num) (nS1 : nat) : result (krcluster * list num * list num * num) :=
    rbind (positions (r_ids (p_sipms p))) (fun xys =>
    rbind (reco xys (charges p)) (fun o =>
    match o with
    | None => Ok (NNN, repeat NN nS1, repeat NN nS1, NN)
    | Some [] => Err IndexError
    | Some (c :: _) => let '(z, dt) := compute_z_and_dt (time_at_max_energy p) t1 in Ok (c, z, dt, Some (rms p / mus)%Q)
    end)).

  (** components.py 988-1024: an S2 *)
  Definition add_s2 (e : krevent) (p : peak) : result krevent :=
    rbind (locate p (e_S1t e) (e_nS1 e)) (fun '(c, z, dt, zrms) =>
    rbind (list_max (charges p)) (fun qm =>
    Ok {| e_event := e_event e; e_time := e_time e; e_nS1 := e_nS1 e; e_S1w := e_S1w e; e_S1h := e_S1h e; e_S1e := e_S1e e; e_S1t := e_S1t e;
       e_nS2 := e_nS2 e + 1; e_S2w := e_S2w e ++ [Some (peak_width p / mus)%Q]; e_S2h := e_S2h e ++ [Some (height p)];
       e_S2e := e_S2e e ++ [Some (total_energy p)]; e_S2q := e_S2q e ++ [k_Q c]; e_S2t := e_S2t e ++ [Some (time_at_max_energy p)];
       e_qmax := option_map (fun l => l ++ [Some qm]) (e_qmax e);
       e_Nsipm := e_Nsipm e ++ [k_nsipm c]; e_DT := e_DT e ++ [dt]; e_Z := e_Z e ++ [z]; e_X := e_X e ++ [k_X c]; e_Y := e_Y e ++ [k_Y c];
       e_R := e_R e ++ [k_R c]; e_Phi := e_Phi e ++ [k_Phi c]; e_Xrms := e_Xrms e ++ [k_Xrms c]; e_Yrms := e_Yrms e ++ [k_Yrms c]; e_Zrms := e_Zrms e ++ [zrms] |})).
  (** for components.py 974-1026: build_pointlike_event *)
  Fixpoint add_s2s (e : krevent) (l : list peak) : result krevent :=
    match l with [] => Ok e | p :: l => rbind (add_s2 e p) (fun e => add_s2s e l) end.

  (** components.py 974-1026: build_pointlike_event *)
  Definition new_event (ev : Z) (t : Q) : krevent :=
    {| e_event := ev; e_time := t; e_nS1 := 0; e_S1w := []; e_S1h := []; e_S1e := []; e_S1t := []; e_nS2 := 0; e_S2w := []; e_S2h := []; e_S2e := []; e_S2q := []; e_S2t := [];
       e_qmax := Some []; e_Nsipm := []; e_DT := []; e_Z := []; e_X := []; e_Y := []; e_R := []; e_Phi := []; e_Xrms := []; e_Yrms := []; e_Zrms := [] |}.
  (** with components.py 974-1026: build_pointlike_event *)
  Definition build_pointlike_event (pm : pmap) (sel : selection) (ev : Z) (timestamp : Q) : result krevent :=
    add_s2s (fold_left add_s1 (chosen (s1_peaks sel) (s1s pm)) (new_event ev (timestamp * (1 # 1000))%Q)) (chosen (s2_peaks sel) (s2s pm)).
End Build.
