(** C118: examples. dorothea over the three events of C106, 7, 8 and 9, of which 8 is left out, in one job and in two; and over a second file that cannot be read *)
From Coq Require Import String.
From Verif Require ReadModel.
From Verif Require Import Base PeaksModel PmapioModel FiltersModel XyModel HitsModel SophModel KrModel PreadModel DorModel DorProps.
From Verif Require Import JobModel JobSpec.
From Verif Require BfyModel BfyProps JobSimModel.
Local Open Scope nat_scope.

Definition dor_range (r : range) (files : list pfile) : result dout :=
  dorothea_range [(0, 0); (40, 80)]%Q 1 (fun _ q _ => q) (fun _ => 1%Z) Raw (fun x => x) (fun _ _ => 0%Q) 5 r (dor_limits 1 1) files.
(** a file without the tables of the PMaps *)
Definition broken : pfile := {| pf_tables := None; pf_runs := pf_runs (file_of dor_events); pf_events := pf_events (file_of dor_events) |}.
Example C118_dorothea_ex :
  match dor_range (0, Some 2) [file_of dor_events; broken], dor_range (2, Some 3) [file_of dor_events; broken], dor_range (0, Some 3) [file_of dor_events; broken] with
  | Ok a, Ok b, Ok c => do_numbers a = [7]%Z /\ do_numbers b = [9]%Z /\ c = join_dorothea a b /\ (do_in a, do_out a, do_in b, do_out b) = (2, 1, 1, 1)
  | _, _, _ => False
  end.
Proof. vm_compute. repeat split. Qed.
Print Assumptions C118_dorothea_ex.
Example C118_broken_ex : dor_range (2, None) [file_of dor_events; broken] = Err (Other 36) /\ dor_range (0, None) [file_of dor_events; broken] = Err (Other 36) /\ dor_range (3, Some 3) [file_of dor_events; broken] = Err (Other 36).
Proof. vm_compute. repeat split. Qed.
Print Assumptions C118_broken_ex.
Example C118_buffy_ex : match BfyProps.bfy_run [BfyProps.bfy_file; BfyProps.bfy_file], BfyProps.bfy_run [BfyProps.bfy_file] with
  | Ok (Some o), Ok (Some a) => BfyModel.bt_numbers o = [7; 7]%Z /\ BfyModel.bt_numbers a = [7%Z] /\ BfyModel.bt_in o = 6 /\ BfyModel.bt_in a = 3
  | _, _ => False
  end.
Proof. vm_compute. repeat split. Qed.
Print Assumptions C118_buffy_ex.
