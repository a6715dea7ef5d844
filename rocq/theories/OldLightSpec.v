(** Vocabulary for the light of simulation files before 2020 *)
From Coq Require Import String.
From Verif Require Import Base ReadModel McModel McSpec SbinModel SbinSpec BfyModel OldLightModel OldBfyModel.
Local Open Scope string_scope.

(** the extents end where the light ends *)
Definition complete (o : ofile) : Prop := in_order (of_ext o) /\ (of_wf o = [] \/ exists x, In x (of_ext o) /\ x_last x = (Z.of_nat (List.length (of_wf o)) - 1)%Z).
(** the types of sensors with a sampling period: the first one that is of PMTs, and the first one that is not *)
Definition first_name (P : string -> Prop) (bins : list (string * Q)) (name : string) : Prop :=
  exists l1 w l2, bins = (l1 ++ (name, w) :: l2)%list /\ P name /\ forall n, In n (map fst l1) -> ~ P n.
Definition types (bins : list (string * Q)) (pmt sipm : string) : Prop := first_name (within "Pmt") bins pmt /\ first_name (fun n => ~ within "Pmt" n) bins sipm.
(** the type of a sensor: that of the PMTs when the database has it among them *)
Definition typed (pmts : list Z) (pmt sipm : string) (id : Z) (name : string) : Prop := (In id pmts -> name = pmt) /\ (~ In id pmts -> name = sipm).

(** the table of the light: for each row of the file, from the one with index [i] on, whose sensor has a position, one with its event, the type of the sensor and the time
    at which its sample begins *)
Inductive light (ext : list extent) (pmts pos : list Z) (pmt sipm : string) (bins : list (string * Q)) : nat -> list wave -> list stime -> Prop :=
| light_nil i : light ext pmts pos pmt sipm bins i [] []
| light_row i w ws r rs : In (w_sensor w) pos -> owner ext i (s_event r) -> s_sensor r = w_sensor w -> typed pmts pmt sipm (w_sensor w) (s_name r) ->
    (exists width, In (s_name r, width) bins /\ s_time r = Some (width * inject_Z (w_bin w))%Q) -> s_charge r = w_charge w ->
    light ext pmts pos pmt sipm bins (S i) ws rs -> light ext pmts pos pmt sipm bins i (w :: ws) (r :: rs)
| light_unknown i w ws rs : ~ In (w_sensor w) pos -> light ext pmts pos pmt sipm bins (S i) ws rs -> light ext pmts pos pmt sipm bins i (w :: ws) rs.

(** a file of the format of 2020 with the same simulation as an old one *)
Record same_simulation (pmts : list Z) (pmt sipm : string) (o : ofile) (n : nfile) : Prop := {
  ss_light : Forall2 (fun w r => r_sensor r = w_sensor w /\ r_bin r = w_bin w /\ r_charge r = w_charge w) (of_wf o) (nf_resp n);
  ss_owner : forall i r, nth_error (nf_resp n) i = Some r -> owner (of_ext o) i (r_event r);
  ss_pos : Forall2 (fun id p => fst p = id /\ typed pmts pmt sipm id (snd p)) (of_pos o) (nf_pos n);
  ss_events : nf_events n = map x_event (of_ext o) }.
(** the sampling periods read from the two files are the same, and there are both types of sensors *)
Definition same_periods (float unit : string -> option Q) (o : ofile) (n : nfile) (bins : list (string * Q)) : Prop :=
  exists conf conf', of_conf o = Some conf /\ nf_conf n = Some conf' /\ get_sensor_binning float unit true conf = Ok bins /\ get_sensor_binning float unit false conf' = Ok bins.
(** what a file stands for in the format of 2020 *)
Definition stands_for (float unit : string -> option Q) (is_pmt_name : string -> bool) (pmt_db : list nat) (f : anyfile) (n : nfile) : Prop :=
  match f with
  | NewFile n' => n' = n
  | OldFile o => exists bins pmt sipm, complete o /\ same_periods float unit o n bins /\ types bins pmt sipm /\ is_pmt_name sipm = false /\ same_simulation (map Z.of_nat pmt_db) pmt sipm o n
  end.
