(** Model of the cities with a range of events: the slice at the start of each pipe (dataflow/dataflow.py 326-354, close_all = True) and the loop that sends the events
    (291-297), over a source that may raise an exception. The rest of each city is that of the models of the runs. *)
From Coq Require Import String.
From Verif Require Import Base ConfigModel TablesModel PeaksModel BuffersModel.
From Verif Require Import ReadModel.
From Verif Require Import PmapioModel FiltersModel XyModel HitsModel CorrModel EsmModel SophModel SoeModel KrModel PreadModel DorModel SrunModel.
From Verif Require Import PaolinaModel TopoModel ErunModel BeerModel BrunModel IsaModel FrunModel HrunModel IsiModel.
Local Open Scope nat_scope.

(** the range of events, of numbers that are not negative (a negative one is refused, C73): the first event and the one after the last; None is the end *)
Definition range := (nat * option nat)%type.
(** dataflow.py 345-351 and 292-296: [start] events are dropped; then stop - start are sent on. After the last one StopPipeline is raised, and no other event is asked for.
    If stop <= start, the events of the source are asked for until start + 1 of them have come, and none is sent on. *)
Definition ranged {A} (r : range) (g : generated A) : generated A :=
  let '(start, stop) := r in let (items, e) := g in
  match stop with
  | None => (skipn start items, e)
  | Some stop =>
    if stop <=? start then ([], if List.length items <=? start then e else None)
    else if stop <=? List.length items then (firstn (stop - start) (skipn start items), None) else (skipn start items, e)
  end.

(** dorothea.py 125-137 *)
Definition dorothea_range xys v noise sw ct sqrt atan qthr (r : range) (c : limits) (files : list pfile) : result dout :=
  rbind (mk_selector c) (fun s =>
  let (items, e) := ranged r (pmap_from_files files) in
  rbind (dorothea_run xys v noise sw ct sqrt atan qthr s items no_output) (fun o => match e with None => Ok o | Some e => Err e end)).
(** sophronia.py 224-237 *)
Definition sophronia_range nearest xys v noise sw ct sqrt atan qthr (r : range) (c : limits) rebin method q_thr same_peak corr (files : list pfile) : result sout :=
  rbind (mk_selector c) (fun s =>
  let (items, e) := ranged r (pmap_from_files files) in
  rbind (sophronia_run nearest xys v noise sw ct sqrt atan qthr s rebin method q_thr same_peak corr items nothing_done) (fun o => match e with None => Ok o | Some e => Err e end)).
(** esmeralda.py 175-186 *)
Definition esmeralda_range {K} (kdst_event : K -> Z) nearest others round5 paths norm m dvs method xy apply_temp apply_z radius th same_peak vox_size strict ethr minv blob scan maxh (r : range) (files : list (hfile (Z * hit) K)) : result (eout K) :=
  let (items, e) := ranged r (hits_and_kdst_from_files fst kdst_event files) in
  rbind (esmeralda_run nearest others round5 paths norm m dvs method xy apply_temp apply_z radius th same_peak vox_size strict ethr minv blob scan maxh items no_event_done) (fun o => match e with None => Ok o | Some e => Err e end).
(** beersheba.py 530-549 *)
Definition beersheba_range {K} (kdst_event : K -> Z) nearest deconvolution round6 m dvs method xy (c : beer_conf) (r : range) n_dim sizes (files : list (hfile (Z * hit) K)) : result (bout K) :=
  rbind (check_configuration n_dim sizes (b_drop_dist c) (b_cluster_size c)) (fun _ =>
  let (items, e) := ranged r (hits_and_kdst_from_files fst kdst_event files) in
  rbind (beersheba_run nearest deconvolution round6 m dvs method xy c items nothing_deconvolved) (fun o => match e with None => Ok o | Some e => Err e end)).
(** isaura.py 109-118 *)
Definition isaura_range {K} (kdst_event : K -> Z) others round5 paths norm vox_size strict ethr minv blob scan maxh (r : range) (files : list (dfile K)) : result (isaout K) :=
  let (items, e) := ranged r (deco_from_files kdst_event files) in
  rbind (isaura_run others round5 paths norm vox_size strict ethr minv blob scan maxh items no_event_read) (fun o => match e with None => Ok o | Some e => Err e end).
(** isidora.py 69-79 *)
Definition isidora_range butter sqrt pmts n_baseline s (r : range) (open_file : string -> rwf_file) (paths : list string) : result isi_tables :=
  let (events, e) := ranged r (wf_from_files open_file paths) in
  rbind (isidora_all butter sqrt pmts n_baseline s events nothing_restored) (fun o => match e with None => Ok o | Some e => Err e end).
(** diomira.py 137-156; [event i] is the simulation of the event number i of those sent on *)
Definition diomira_range event (r : range) (open_file : string -> mcrd_file) (paths : list string) : result dio_tables :=
  let (events, e) := ranged r (wf_from_files open_file paths) in
  rbind (diomira_all event events nothing_simulated) (fun o => match e with None => Ok o | Some e => Err e end).
(** irene.py 148-165 and hypathia.py 149-169 *)
Definition pmaps_range {W L} f32 step n_sensors (r : range) (open_file : string -> h5file (Z * Q) W L Z (list Z)) (paths : list string) : result irene_tables :=
  let (events, e) := ranged r (wf_from_files open_file paths) in
  rbind (pmaps_all f32 step n_sensors events nothing_found) (fun o => match e with None => Ok o | Some e => Err e end).
(** with irene.py 148-165 *)
Definition irene_range f32 step n_sensors r (open_file : string -> rwf_file) paths := pmaps_range f32 (fun _ => step) n_sensors r open_file paths.
(** with irene.py 148-165 *)
Definition hypathia_range f32 rn pmts sipms p wl nss r (open_file : string -> mcrd_file) paths := pmaps_range f32 (step_of rn pmts sipms p wl nss) (List.length pmts) r open_file paths.
