(** An event of cities/beersheba.py: from the hits of Sophronia to the deconvolved hits *)
From Verif Require Import Base PeaksModel CorrModel PsfModel DeconvModel HitsModel EsmModel.
Local Open Scope Q_scope.

(** the configuration of the city that matters for one event; beersheba.py 384-396 *)
Record beer_conf := {
  b_threshold : Q; b_same_peak : bool; b_apply_z : bool;
  b_q_cut : Q; b_drop_dist : list Q; b_cluster_size : option Z;
  b_cut_type : cut_type; b_e_cut : Q; b_energy : nat }.
(** a row of the dataframe of hits with its label, as the functions of the deconvolution see it. The hits are those of one event, so
    the groups of "event time npeak" (beersheba.py 311, 351) and of "npeak" (225) are the same. The redistributed variables are E and Ec
    (501-503); one of them that is not a number is not modelled. *)
Definition to_row (i : nat) (h : hit) : result dhit :=
  match hE h, hEc h with
  | Some e, Some ec => Ok {| d_index := i; d_peak := [qn (npeak h)]; dX := hX h; dY := hY h; dZ := hZ h; dQ := hQ h; dvars := [e; ec] |}
  | _, _ => Err NotModelled
  end.
(** for beersheba.py 531-549 *)
Fixpoint to_rows (i : nat) (hits : list hit) : result (list dhit) :=
  match hits with
  | [] => Ok []
  | h :: hits => rbind (to_row i h) (fun d => rbind (to_rows (S i) hits) (fun ds => Ok (d :: ds)))
  end.
(** what the city writes for one event: the hits after the threshold (CHITS/lowTh, 536), whether the event has hits left (540), and, if
    it has, the rows of DECO/Events with the number of the peak and the time (541-549) *)
Record beer_out := { bo_hits : list hit; bo_passed : bool; bo_deco : list (list Q * deco * Q) }.
Section City.
  (** griddata with method nearest, and the deconvolution of one slice with the PSF nearest to its z and to the position of the peak *)
  Variable nearest : list (Q * Q * Q) -> Q * Q * Q -> nat.
  Variable deconvolution : list (Q * Q * Q) -> Q -> list (Q * Q * Q).
  Variable round6 : Q -> Q.
  Variables (m : list kbin) (dvs : list (option Q)) (method : norm_method) (xy : option region).
  (** beersheba.py 531-549 for one event; 96-97: event_info_adder; 360-365: check_nonempty_dataframe *)
  Definition beersheba_event (c : beer_conf) (timestamp : Q) (hits : list hit) : result beer_out :=
    rbind (beersheba_hits nearest m dvs method xy false (b_apply_z c) (b_threshold c) (b_same_peak c) hits) (fun thr =>
    rbind (to_rows 0 thr) (fun df =>
    rbind (cut_over_Q (b_q_cut c) 2 df) (fun df =>
    rbind (drop_isolated (b_drop_dist c) (b_cluster_size c) 2 df) (fun df =>
    match df with
    | [] => Ok {| bo_hits := thr; bo_passed := false; bo_deco := [] |}
    | _ => rbind (apply_deconvolution deconvolution round6 (b_cut_type c) (b_e_cut c) (b_energy c) df) (fun deco =>
           Ok {| bo_hits := thr; bo_passed := true; bo_deco := map (fun d => (d, timestamp / 1000)) deco |})
    end)))).
End City.
