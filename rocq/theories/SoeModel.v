(** The hits Sophronia writes of one event: cities/sophronia.py 74-76, 153-194, 219-236 *)
From Verif Require Import Base Arrays PeaksModel PmapioModel FiltersModel HitsModel CorrModel EsmModel SophModel.
Local Open Scope Q_scope.

(** the table of hits: [hmeta] is the number of the row, in place of the columns that nothing changes; there is no column Ec yet *)
Definition hits_table (hits : list shit) : list hit :=
  mapi (fun i h => {| hmeta := i; npeak := q_npeak h; hX := q_X h; hY := q_Y h; hZ := q_Z h; hQ := q_Q h; hE := Some (q_E h); hEc := None |}) hits.
(** sophronia.py 74-76: count_valid_hits *)
Definition count_valid_hits (hits : list hit) : nat := length (filter (fun h => negb (is_nn h)) hits).
(** the arguments of hits_corrector *)
Record corrections := { k_map : list kbin; k_dvs : list (option Q); k_method : norm_method; k_xy : option region; k_temp : bool; k_z : bool }.

Section Sophronia.
  Variable nearest : list (Q * Q * Q) -> Q * Q * Q -> nat.
  Variable sipm_xys : list (Q * Q).
  Variable drift_v : Q.
  Variable sipm_noise : list nat -> list Q -> Z -> list Q.
  Variable sample_width : Q -> Z.
  Variable ctype : charge_type.
  Variable global_reco : list (Q * Q) -> list Q -> result (option (list (Q * Q))).

  (** sophronia.py 158-194, 219-236. [None]: the event does not pass the selection of peaks; [Some None]: it has no valid hit. The table of
      point-like events (build_pointlike_event) is that of KrModel.v, and the column that tells the clusters apart that of TagModel.v. *)
  Definition sophronia_hits (s : selector) (rebin method : arg) (q_thr : Q) (same_peak : bool) (corr : option corrections) (pm : pmap) (event : Z) (timestamp : Q)
    : result (option (option (list hit))) :=
    let sel := pmap_filter s pm in
    if negb (passed sel) then Ok None else
    rbind (sipms_as_hits sipm_xys drift_v sipm_noise sample_width ctype global_reco rebin method q_thr pm sel event timestamp) (fun hits =>
    let hits := hits_table hits in
    if negb (0 <? count_valid_hits hits)%nat then Ok (Some None) else
    let hits := merge_NN_hits false same_peak hits in
    match corr with
    | None => Ok (Some (Some hits))
    | Some k => rbind (snd (correct nearest (k_map k) (k_dvs k) (k_method k) (k_xy k) (k_temp k) (k_z k) hits)) (fun hits => Ok (Some (Some hits)))
    end).
End Sophronia.
