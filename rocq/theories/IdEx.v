(** C117: runs that finish, and what of the order is not kept *)
From Coq Require Import String.
From Verif Require ReadModel.
From Verif Require Import Base PeaksModel PmapioModel PreadModel DorModel DorProps SrunModel ErunModel ErunChain IsaModel IsaProps.
From Verif Require BfyModel BfyProps DetModel DetProps FrunModel FrunChain IreneProps CorrMore CorrModel PaolinaProps EsmProps KrModel.
From Verif Require Import IreneModel.
From Verif Require Import IdSpec IdWf IdReco IdSim IdChain.
Local Open Scope nat_scope.

(** the run of isaura of C112: the table of events has 9 before 7, and isaura writes 7 before 9 *)
Theorem C117_isaura_order_refuted : exists files (o : isaout Z), city_ex files = Ok o /\ ~ subsequence (map event_time (is_info o)) (hits_listed (map df_file files)).
Proof.
  exists isa_files. assert (R : exists o, city_ex isa_files = Ok o /\ is_info o = [(5%Z, 7%Z, 3000); (5%Z, 9%Z, 4000); (6%Z, 2%Z, 1000)]%Q) by (eexists; split; vm_compute; reflexivity). destruct R as (o & R & I). exists o. split; [exact R|]. rewrite I. cbn.
  intros S. inversion S as [| |a l m S1]; subst. inversion S1 as [|a l m S2|]; subst; [|match goal with H : subsequence _ [_] |- _ => inversion H; subst end; match goal with H : subsequence _ [] |- _ => inversion H end].
  inversion S2 as [| |a l m S3]; subst. inversion S3.
Qed.
(** runs that leave events out: sophronia leaves 8 out; the tracks are of 7 and 9; buffy has buffers of 7 only, with numbers 28 and 29 = 7 * 4 + 0 and + 1 *)
Example C117_ex :
  pm_listed [file_of dor_events] = [(7%Z, 1000); (8%Z, 2000); (9%Z, 3000)]%Q /\
  match dor_run 1 1 dor_events with Ok o => map event_time (do_info o) = [(7%Z, 1000); (9%Z, 3000)]%Q /\ map KrModel.w_event (do_rows o) = [7; 9]%Z | Err _ => False end /\
  match dor_hits with
  | Ok so => map event_time (so_info so) = [(7%Z, 1000); (9%Z, 3000)]%Q /\ map fst (so_hits so) = [7; 7]%Z /\
    match esmeralda KrModel.w_event CorrMore.first_nearest (fun _ => 0) (fun x => x) PaolinaProps.unit_paths (fun _ => 1%Q) EsmProps.map_ex [Some 2%Q] CorrModel.Maximum None false true 50%Q 10%Q true (1, 1, 1)%Q true 0%Q 1 1%Q None 10%Z [sophronia_file so] with
    | Ok o => map event_time (eo_info o) = [(7%Z, 1000); (9%Z, 3000)]%Q /\ map c_number (eo_hits o) = [7]%Z
    | Err _ => False
    end
  | Err _ => False
  end.
Proof. vm_compute. repeat split. Qed.
Example C117_buffy_ex : match BfyProps.bfy_run [BfyProps.bfy_file] with
  | Ok (Some o) => BfyModel.bt_numbers o = [7%Z] /\ BfyModel.nf_events BfyProps.bfy_file = [7; 8; 9]%Z /\ map (fun r => (BfyModel.br_nexus r, BfyModel.br_event r)) (BfyModel.bt_rows o) = [(7, 28); (7, 29)]%Z
  | _ => False
  end.
Proof. vm_compute. repeat split. Qed.
Example C117_irene_ex : wf_listed (fun _ => FrunChain.two_events) ["a"%string] = [(7%Z, 100%Q); (9%Z, 200%Q)] /\
  match FrunModel.irene (fun x => x) (irene_step IreneProps.ex_butter IreneProps.ex_sqrt IreneProps.ex_pmts (IreneProps.ex_sipms true) (IreneProps.ex_par IreneProps.individual) 400 200) 3 (fun _ => FrunChain.two_events) ["a"%string] with
  | Ok o => FrunModel.it_events o = [(7%Z, 100%Q)]
  | Err _ => False
  end.
Proof. vm_compute. repeat split. Qed.
Print Assumptions C117_isaura_order_refuted.
Print Assumptions C117_ex.
Print Assumptions C117_buffy_ex.
Print Assumptions C117_irene_ex.
