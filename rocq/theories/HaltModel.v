(** The tables that dorothea, sophronia, esmeralda, beersheba and isaura leave when they fail: each city, writer by writer, in the order of its pipe. A branch
    runs before what follows it (dataflow/dataflow.py 200-209) and the targets of a fork one after the other (212-219). *)
From Coq Require Import String.
From Verif Require Import Base ConfigModel TablesModel PsfModel DeconvModel PeaksModel BuffersModel.
From Verif Require Import ReadModel.
From Verif Require Import PmapioModel FiltersModel XyModel HitsModel CorrModel EsmModel SophModel SoeModel KrModel PreadModel DorModel SrunModel.
From Verif Require Import PaolinaModel TopoModel ErunModel BeerModel BrunModel IsaModel FrunModel HrunModel IsiModel JobModel.
From Verif Require Import HaltBase.
Local Open Scope nat_scope.

(** ---- dorothea ---- *)
(** rows appended to Filters/s12_selector, DST/Events and Run, event numbers collected, and events counted *)
Definition dor_add (flags : list (Z * bool)) (krs : list krrow) (info : list (Z * Z * Q)) (numbers : list Z) (i u p f : nat) (o : dout) : dout :=
  {| do_filter := do_filter o ++ flags; do_rows := do_rows o ++ krs; do_info := do_info o ++ info; do_numbers := do_numbers o ++ numbers;
     do_in := i + do_in o; do_out := u + do_out o; do_passed := p + do_passed o; do_failed := f + do_failed o |}.
(** evm/event_model.py 364-404: store, row by row *)
Definition kr_write {T} (add : krrow -> T -> T) (e : krevent) : prog T unit :=
  let s1_peaks := if e_nS1 e =? 0 then [0] else seq 0 (e_nS1 e) in
  let s2_peaks := if e_nS2 e =? 0 then [0] else seq 0 (e_nS2 e) in
  each (list_prod s1_peaks s2_peaks) (fun ij => r <- call ((fun '(i, j) => kr_row (fill_defaults e) i j) ij) ;; put (add r)).
Section Dorothea.
  Variables (sipm_xys : list (Q * Q)) (drift_v : Q) (sipm_noise : list nat -> list Q -> Z -> list Q) (sample_width : Q -> Z) (ctype : charge_type).
  Variables (sqrt : Q -> Q) (arctan2 : Q -> Q -> Q) (qthr : Q).
  (** dorothea.py 125-137 *)
  Definition dorothea_step (s : selector) (it : pitem) : prog dout unit :=
    let sel := pmap_filter s (pi_pmap it) in
    put (dor_add [(pi_event it, passed sel)] [] [] [] 1 0 (if passed sel then 1 else 0) (if passed sel then 0 else 1)) ;;;
    if passed sel then
      put (dor_add [] [] [] [] 0 1 0 0) ;;;
      e <- call (build_pointlike_event sipm_xys drift_v (charge_single sipm_noise sample_width ctype) (rms sqrt) (reco sqrt arctan2 qthr) (pi_pmap it) sel (pi_event it) (pi_time it)) ;;
      put (dor_add [] [] [] [pi_event it] 0 0 0 0) ;;;
      kr_write (fun r => dor_add [] [r] [] [] 0 0 0 0) e ;;;
      put (dor_add [] [] [(pi_run it, pi_event it, pi_time it)] [] 0 0 0 0)
    else ret tt.
  (** dorothea.py 68-148, once the selector is made *)
  Definition dorothea_left (s : selector) (files : list pfile) : dout * option pyexc := leave (dorothea_step s) (pmap_from_files files) no_output.
End Dorothea.

(** ---- sophronia ---- *)
Definition sop_add (flags valid : list (Z * bool)) (krs : list krrow) (hits : list (Z * hit)) (info : list (Z * Z * Q)) (numbers : list Z) (i u p f : nat) (o : sout) : sout :=
  {| so_filter := so_filter o ++ flags; so_valid := so_valid o ++ valid; so_rows := so_rows o ++ krs; so_hits := so_hits o ++ hits; so_info := so_info o ++ info;
     so_numbers := so_numbers o ++ numbers; so_in := i + so_in o; so_out := u + so_out o; so_passed := p + so_passed o; so_failed := f + so_failed o |}.
Section Sophronia.
  Variable nearest : list (Q * Q * Q) -> Q * Q * Q -> nat.
  Variables (sipm_xys : list (Q * Q)) (drift_v : Q) (sipm_noise : list nat -> list Q -> Z -> list Q) (sample_width : Q -> Z) (ctype : charge_type).
  Variables (sqrt : Q -> Q) (arctan2 : Q -> Q -> Q) (qthr : Q).
  (** sophronia.py 219-237; the branch of the hits, 214-215, writes its filter when the hits are made and the hits when they are merged and corrected *)
  Definition sophronia_step (s : selector) (rebin method : arg) (q_thr : Q) (same_peak : bool) (corr : option corrections) (it : pitem) : prog sout unit :=
    let sel := pmap_filter s (pi_pmap it) in
    put (sop_add [(pi_event it, passed sel)] [] [] [] [] [] 1 0 (if passed sel then 1 else 0) (if passed sel then 0 else 1)) ;;;
    if passed sel then
      put (sop_add [] [] [] [] [] [] 0 1 0 0) ;;;
      e <- call (build_pointlike_event sipm_xys drift_v (charge_single sipm_noise sample_width ctype) (rms sqrt) (reco sqrt arctan2 qthr) (pi_pmap it) sel (pi_event it) (pi_time it)) ;;
      kr_write (fun r => sop_add [] [] [r] [] [] [] 0 0 0 0) e ;;;
      made <- call (sipms_as_hits sipm_xys drift_v sipm_noise sample_width ctype (positions qthr) rebin method q_thr (pi_pmap it) sel (pi_event it) (pi_time it)) ;;
      (let hits := hits_table made in
       let valid := 0 <? count_valid_hits hits in
       put (sop_add [] [(pi_event it, valid)] [] [] [] [] 0 0 0 0) ;;;
       (if valid then
          hits <- call (let hits := merge_NN_hits false same_peak hits in
                        match corr with None => Ok hits | Some k => snd (correct nearest (k_map k) (k_dvs k) (k_method k) (k_xy k) (k_temp k) (k_z k) hits) end) ;;
          put (sop_add [] [] [] (map (pair (pi_event it)) hits) [] [] 0 0 0 0)
        else ret tt)) ;;;
      put (sop_add [] [] [] [] [] [pi_event it] 0 0 0 0) ;;;
      put (sop_add [] [] [] [] [(pi_run it, pi_event it, pi_time it)] [] 0 0 0 0)
    else ret tt.
  (** sophronia.py 80-249, once the selector is made *)
  Definition sophronia_left s rebin method q_thr same_peak corr (files : list pfile) : sout * option pyexc :=
    leave (sophronia_step s rebin method q_thr same_peak corr) (pmap_from_files files) nothing_done.
End Sophronia.

(** ---- the tracks ---- *)
(** components.py 1641-1704: compute_and_write_tracks_info, in the order of its pipe: the filter of the hits, and, when there are, the summary, the filter of the
    topology, the hits and the tracks. [add] appends to the tables *)
Section Tracks.
  Context {T : Type}.
  Variable add : list (Z * bool) -> list (Z * bool) -> list summary -> list ohit -> list track_row -> T -> T.
  Variables (round5 : Q -> Q) (paths : list voxel -> list voxel * (voxel -> voxel -> Q)) (norm : pos3 -> Q).
  Variables (vox_size : Q * Q * Q) (strict : bool) (energy_threshold : Q) (min_voxels : nat) (blob_radius : Q) (scan_radius : option Q) (max_num_hits : Z).
  (** for esmeralda.py 175-186 *)
  Definition tracks_step (t : hit_energy) (event : Z) (hits : list thit) : prog T unit :=
    match hits with
    | [] => put (add [(event, false)] [] [] [] [])
    | _ =>
      put (add [(event, true)] [] [] [] []) ;;;
      made <- call (create_extract_track_blob_info round5 paths norm vox_size strict energy_threshold min_voxels blob_radius scan_radius max_num_hits event (copy_Efield t hits)) ;;
      let '(rows, out, flag) := made in
      let out := sort_hits out in
      s <- call (make_event_summary event rows out flag) ;;
      put (add [] [] s [] []) ;;;
      put (add [] [(event, negb (List.length rows =? 0))] [] [] []) ;;;
      put (add [] [] [] out []) ;;;
      put (add [] [] [] [] rows)
    end.
End Tracks.

(** ---- esmeralda ---- *)
Definition esm_add {K} (select topology : list (Z * bool)) (s : list summary) (hits : list crow) (tracks : list track_row) (kdst : list K) (info : list (Z * Z * Q)) (numbers : list Z)
  (i u : nat) (o : eout K) : eout K :=
  {| eo_select := eo_select o ++ select; eo_topology := eo_topology o ++ topology; eo_summary := eo_summary o ++ s; eo_hits := eo_hits o ++ hits; eo_tracks := eo_tracks o ++ tracks;
     eo_kdst := eo_kdst o ++ kdst; eo_info := eo_info o ++ info; eo_numbers := eo_numbers o ++ numbers; eo_in := i + eo_in o; eo_out := u + eo_out o |}.
Section Esmeralda.
  Context {K : Type}.
  Variable kdst_event : K -> Z.
  Variable nearest : list (Q * Q * Q) -> Q * Q * Q -> nat.
  Variable others : hit -> nat.
  Variables (round5 : Q -> Q) (paths : list voxel -> list voxel * (voxel -> voxel -> Q)) (norm : pos3 -> Q).
  Variables (m : list kbin) (dvs : list (option Q)) (method : norm_method) (xy : option region) (apply_temp apply_z : bool).
  Variables (radius th : Q) (same_peak : bool).
  Variables (vox_size : Q * Q * Q) (strict : bool) (energy_threshold : Q) (min_voxels : nat) (blob_radius : Q) (scan_radius : option Q) (max_num_hits : Z).
  (** esmeralda.py 175-186 *)
  Definition esmeralda_step (it : hitem (Z * hit) K) : prog (eout K) unit :=
    put (esm_add [] [] [] [] [] [] [] [] 1 0) ;;;
    hits <- call (esmeralda_hits nearest m dvs method xy apply_temp apply_z radius th same_peak (map snd (i_hits it))) ;;
    tracks_step (fun f1 f2 s h t => esm_add f1 f2 s (map (fun h => {| c_number := i_event it; c_hit := nth (o_row h) hits no_hit; c_out := h |}) h) t [] [] [] 0 0)
      round5 paths norm vox_size strict energy_threshold min_voxels blob_radius scan_radius max_num_hits HEc (i_event it) (map (for_tracks others) hits) ;;;
    put (esm_add [] [] [] [] [] (i_kdst it) [] [] 0 0) ;;;
    put (esm_add [] [] [] [] [] [] [(i_run it, i_event it, i_time it)] [] 0 0) ;;;
    put (esm_add [] [] [] [] [] [] [] [i_event it] 0 1).
  (** esmeralda.py 69-196 *)
  Definition esmeralda_left (files : list (hfile (Z * hit) K)) : eout K * option pyexc := leave esmeralda_step (hits_and_kdst_from_files fst kdst_event files) no_event_done.
End Esmeralda.

(** ---- beersheba ---- *)
Definition bee_add {K} (hits : list (Z * hit)) (flags : list (Z * bool)) (dec : list (Z * (list Q * deco * Q))) (kdst : list K) (info : list (Z * Z * Q)) (numbers : list Z) (i u p f : nat) (o : bout K) : bout K :=
  {| br_hits := br_hits o ++ hits; br_filter := br_filter o ++ flags; br_deco := br_deco o ++ dec; br_kdst := br_kdst o ++ kdst; br_info := br_info o ++ info; br_numbers := br_numbers o ++ numbers;
     br_in := i + br_in o; br_out := u + br_out o; br_passed := p + br_passed o; br_failed := f + br_failed o |}.
Section Beersheba.
  Context {K : Type}.
  Variable kdst_event : K -> Z.
  Variable nearest : list (Q * Q * Q) -> Q * Q * Q -> nat.
  Variable deconvolution : list (Q * Q * Q) -> Q -> list (Q * Q * Q).
  Variable round6 : Q -> Q.
  Variables (m : list kbin) (dvs : list (option Q)) (method : norm_method) (xy : option region) (c : beer_conf).
  (** beersheba.py 530-549 *)
  Definition beersheba_step (it : hitem (Z * hit) K) : prog (bout K) unit :=
    put (bee_add [] [] [] [] [] [] 1 0 0 0) ;;;
    thr <- call (beersheba_hits nearest m dvs method xy false (b_apply_z c) (b_threshold c) (b_same_peak c) (map snd (i_hits it))) ;;
    put (bee_add (map (pair (i_event it)) thr) [] [] [] [] [] 0 0 0 0) ;;;
    df <- call (to_rows 0 thr) ;;
    df <- call (cut_over_Q (b_q_cut c) 2 df) ;;
    df <- call (drop_isolated (b_drop_dist c) (b_cluster_size c) 2 df) ;;
    match df with
    | [] => put (bee_add [] [(i_event it, false)] [] [] [] [] 0 0 0 1)
    | _ =>
      put (bee_add [] [(i_event it, true)] [] [] [] [] 0 0 1 0) ;;;
      d <- call (apply_deconvolution deconvolution round6 (b_cut_type c) (b_e_cut c) (b_energy c) df) ;;
      put (bee_add [] [] [] [] [] [i_event it] 0 1 0 0) ;;;
      put (bee_add [] [] (map (pair (i_event it)) (map (fun d => (d, i_time it / 1000)%Q) d)) [] [] [] 0 0 0 0) ;;;
      put (bee_add [] [] [] (i_kdst it) [] [] 0 0 0 0) ;;;
      put (bee_add [] [] [] [] [(i_run it, i_event it, i_time it)] [] 0 0 0 0)
    end.
  (** beersheba.py 483-559, once the configuration is checked *)
  Definition beersheba_left (files : list (hfile (Z * hit) K)) : bout K * option pyexc := leave beersheba_step (hits_and_kdst_from_files fst kdst_event files) nothing_deconvolved.
End Beersheba.

(** ---- isaura ---- *)
Definition isa_add {K} (select topology : list (Z * bool)) (s : list summary) (hits : list irow) (tracks : list track_row) (kdst : list K) (info : list (Z * Z * Q)) (numbers : list Z)
  (i u : nat) (o : isaout K) : isaout K :=
  {| is_select := is_select o ++ select; is_topology := is_topology o ++ topology; is_summary := is_summary o ++ s; is_hits := is_hits o ++ hits; is_tracks := is_tracks o ++ tracks;
     is_kdst := is_kdst o ++ kdst; is_info := is_info o ++ info; is_numbers := is_numbers o ++ numbers; is_in := i + is_in o; is_out := u + is_out o |}.
Section Isaura.
  Context {K : Type}.
  Variable k_event : K -> Z.
  Variable others : drow -> nat.
  Variables (round5 : Q -> Q) (paths : list voxel -> list voxel * (voxel -> voxel -> Q)) (norm : pos3 -> Q).
  Variables (vox_size : Q * Q * Q) (strict : bool) (energy_threshold : Q) (min_voxels : nat) (blob_radius : Q) (scan_radius : option Q) (max_num_hits : Z).
  (** isaura.py 109-118 *)
  Definition isaura_step (it : ditem (K := K)) : prog (isaout K) unit :=
    put (isa_add [] [] [] [] [] [] [] [] 1 0) ;;;
    put (isa_add [] [] [] [] [] [] [] [x_event it] 0 1) ;;;
    tracks_step (fun f1 f2 s h t => isa_add f1 f2 s (map (fun h => {| ir_number := x_event it; ir_hit := nth (o_row h) (x_hits it) no_row; ir_out := h |}) h) t [] [] [] 0 0)
      round5 paths norm vox_size strict energy_threshold min_voxels blob_radius scan_radius max_num_hits HE (x_event it) (map (to_track others) (x_hits it)) ;;;
    put (isa_add [] [] [] [] [] [] [(x_run it, x_event it, x_time it)] [] 0 0) ;;;
    put (isa_add [] [] [] [] [] match x_kdst it with Some l => l | None => [] end [] [] 0 0).
  (** isaura.py 35-127 *)
  Definition isaura_left (files : list (dfile K)) : isaout K * option pyexc := leave isaura_step (deco_from_files k_event files) no_event_read.
End Isaura.
