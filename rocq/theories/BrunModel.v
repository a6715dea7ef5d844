(** Model of a run of beersheba: cities/beersheba.py 483-559, with the reader of hits (ReadModel.v) and the event of BeerModel.v *)
From Verif Require Import Base ReadModel CorrModel PsfModel DeconvModel HitsModel EsmModel BeerModel.
Local Open Scope nat_scope.

(** what a run writes and counts: the rows of CHITS/lowTh, Filters/nohits, DECO/Events, DST/Events and Run, the list of event numbers, and the
    numbers of events in, out, passed and failed *)
Record bout {K : Type} := { br_hits : list (Z * hit); br_filter : list (Z * bool); br_deco : list (Z * (list Q * deco * Q)); br_kdst : list K; br_info : list (Z * Z * Q);
                 br_numbers : list Z; br_in : nat; br_out : nat; br_passed : nat; br_failed : nat }.
Arguments bout K : clear implicits.
(** for beersheba.py 483-559 *)
Definition nothing_deconvolved {K} : bout K := {| br_hits := []; br_filter := []; br_deco := []; br_kdst := []; br_info := []; br_numbers := []; br_in := 0; br_out := 0; br_passed := 0; br_failed := 0 |}.

(** the exception of beersheba.py 499 *)
Definition NotImplementedError := Other 71.
(** beersheba.py 495-503 and 337-346, before any file is opened: the sizes of the parameters with one number per dimension, and the distances to
    drop isolated sensors *)
Definition check_configuration (n_dim : Z) (sizes : list nat) (drop_dist : list Q) (cluster_size : option Z) : result unit :=
  if existsb (fun n => negb (Z.of_nat n =? n_dim)%Z) sizes then Err ValueError else
  if (2 <? n_dim)%Z then Err NotImplementedError else
  match length drop_dist, cluster_size with
  | 2, _ => Ok tt
  | 3, None => Err TypeError
  | 3, Some _ => Ok tt
  | _, _ => Err ValueError
  end.

Section Beersheba.
  Context {K : Type}.
  Variable kdst_event : K -> Z.
  Variable nearest : list (Q * Q * Q) -> Q * Q * Q -> nat.
  Variable deconvolution : list (Q * Q * Q) -> Q -> list (Q * Q * Q).
  Variable round6 : Q -> Q.
  Variables (m : list kbin) (dvs : list (option Q)) (method : norm_method) (xy : option region) (c : beer_conf).

  (** beersheba.py 531-549: the events, one after the other. The hits over threshold and the filter are written of every event, the other
      tables of the events that have hits left. *)
  Fixpoint beersheba_run (items : list (hitem (Z * hit) K)) (o : bout K) : result (bout K) :=
    match items with
    | [] => Ok o
    | it :: items =>
      rbind (beersheba_event nearest deconvolution round6 m dvs method xy c (i_time it) (map snd (i_hits it))) (fun b =>
      let all := {| br_hits := br_hits o ++ map (pair (i_event it)) (bo_hits b); br_filter := br_filter o ++ [(i_event it, bo_passed b)]; br_deco := br_deco o; br_kdst := br_kdst o;
                    br_info := br_info o; br_numbers := br_numbers o; br_in := S (br_in o); br_out := br_out o; br_passed := br_passed o; br_failed := br_failed o |} in
      beersheba_run items
        (if bo_passed b then
           {| br_hits := br_hits all; br_filter := br_filter all; br_deco := br_deco o ++ map (pair (i_event it)) (bo_deco b); br_kdst := br_kdst o ++ i_kdst it;
              br_info := br_info o ++ [(i_run it, i_event it, i_time it)]; br_numbers := br_numbers o ++ [i_event it]; br_in := br_in all; br_out := S (br_out o);
              br_passed := S (br_passed o); br_failed := br_failed o |}
         else
           {| br_hits := br_hits all; br_filter := br_filter all; br_deco := br_deco o; br_kdst := br_kdst o; br_info := br_info o; br_numbers := br_numbers o;
              br_in := br_in all; br_out := br_out o; br_passed := br_passed o; br_failed := S (br_failed o) |}))
    end.
  (** beersheba.py 483-559 without correction in time, for all the events of the files. Not modelled: the files of the map and of the PSF, the copy
      of the simulation and the range of events (C73); the rounding of the columns by the types of the tables. *)
  Definition beersheba (n_dim : Z) (sizes : list nat) (files : list (hfile (Z * hit) K)) : result (bout K) :=
    rbind (check_configuration n_dim sizes (b_drop_dist c) (b_cluster_size c)) (fun _ =>
    let (items, e) := hits_and_kdst_from_files fst kdst_event files in
    rbind (beersheba_run items nothing_deconvolved) (fun o => match e with None => Ok o | Some e => Err e end)).
End Beersheba.
