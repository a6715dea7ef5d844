(** C121: examples *)
From Coq Require Import String.
From Verif Require Import Base ConfigModel TablesModel PeaksModel PmapioModel FiltersModel XyModel HitsModel IreneModel SophModel KrModel PreadModel DorModel PreadSpec DorProps FrunModel.
From Verif Require IreneProps FrunChain.
From Verif Require Import JobModel JobEx.
From Verif Require Import HaltBase HaltModel HaltWfModel HaltSpec HaltStopSpec.
Local Open Scope nat_scope.

(** dorothea without a lower limit on the number of S2s: the event 10 has none, passes the filter and raises TypeError; its flag is in the file, and the events 7 and 9 are as if it were not there *)
Definition with_ten : list written_event := dor_events ++ [{| we_number := 10; we_time := 4000; we_pmap := {| s1s := [dor_s1]; s2s := [] |} |}].
Definition on_dor {A} (f : selector -> A) (no : A) : A := match mk_selector (dor_limits 0 1) with Ok s => f s | Err _ => no end.
Example C121_dorothea_ex :
  on_dor (fun s => match dorothea_left [(0, 0); (40, 80)]%Q 1 (fun _ q _ => q) (fun _ => 1%Z) Raw (fun x => x) (fun _ _ => 0%Q) 5 s [file_of with_ten] with
  | (o, Some TypeError) => do_filter o = [(7, true); (8, false); (9, true); (10, true)]%Z /\ map w_event (do_rows o) = [7; 9]%Z /\ map (fun i => snd (fst i)) (do_info o) = [7; 9]%Z
  | _ => False
  end) False.
Proof. vm_compute. repeat split. Qed.
Print Assumptions C121_dorothea_ex.
(** a run over the same events that is stopped: the flag of the event 9 has been written, and nothing else of it; and, before, its row and not yet its number *)
Example C121_stopped_ex :
  on_dor (fun s => let l := stopped (dorothea_step [(0, 0); (40, 80)]%Q 1 (fun _ q _ => q) (fun _ => 1%Z) Raw (fun x => x) (fun _ _ => 0%Q) 5 s) (pmap_from_files [file_of dor_events]) no_output in
  existsb (fun o => match map fst (do_filter o), map w_event (do_rows o), map (fun i => snd (fst i)) (do_info o) with [7; 8; 9]%Z, [7]%Z, [7]%Z => true | _, _, _ => false end) l &&
  existsb (fun o => match map fst (do_filter o), map w_event (do_rows o), map (fun i => snd (fst i)) (do_info o) with [7; 8; 9]%Z, [7; 9]%Z, [7]%Z => true | _, _, _ => false end) l = true) False.
Proof. vm_compute. reflexivity. Qed.
Print Assumptions C121_stopped_ex.

(** irene lists an event before it writes its trigger: when this fails, the event is in Run, and its channels are not in Trigger *)
Definition short_channels : rwf_file :=
  {| h_events := h_events FrunChain.two_events; h_run := h_run FrunChain.two_events; h_pmt := h_pmt FrunChain.two_events; h_sipm := h_sipm FrunChain.two_events;
     h_trg := h_trg FrunChain.two_events; h_chn := Some [[1; 0]; [0; 0]]%Z |}.
Theorem C121_irene_trigger_refuted : exists butter sqrt pmts sipms p ns nss open_file paths o,
  pmaps_left (fun x => x) (fun _ => irene_first butter sqrt pmts sipms p ns) (irene_second pmts sipms p ns nss) (List.length pmts) open_file paths = (o, Some ValueError) /\
  irene (fun x => x) (irene_step butter sqrt pmts sipms p ns nss) (List.length pmts) open_file paths = Err ValueError /\
  map fst (it_events o) = [7%Z] /\ trg_channels (it_trigger o) = [].
Proof.
  exists IreneProps.ex_butter, IreneProps.ex_sqrt, IreneProps.ex_pmts, (IreneProps.ex_sipms true), (IreneProps.ex_par IreneProps.individual), 400, 200, (fun _ => short_channels), ["a"%string].
  eexists. split; [vm_compute; reflexivity|]. split; vm_compute; [reflexivity|]. split; reflexivity.
Qed.
Print Assumptions C121_irene_trigger_refuted.
