(** C114: hypathia over the file of buffy *)
From Coq Require Import String Qround Lia.
From Verif Require ReadModel ReadSpec ReadMc BuffersModel BuffersSpec BfyModel BfySpec BfyProps.
From Verif Require Import Base ConfigModel ConfigSpec TablesModel PeaksModel PeaksSpec CalibModel CalibSpec IreneModel IreneSpec PmapioModel PmapioSpec HypaModel HypaSpec FrunModel HrunModel.
From Verif Require FrunSpec.
From Verif Require Import HrunSpec HrunProps.
Import BuffersModel(out_row). Import BfyModel BfySpec BfyProps.
Local Open Scope nat_scope.
Notation len := List.length.

(** hypathia's configuration, for waveforms of [wl] samples for the PMTs and [nss] for the SiPMs (see HypaSpec.good_light) *)
Record hyp_setup (p : hparams) (wl ns nss r m : nat) : Prop := {
  hs_ns : Z.to_nat (Z.max 1 (h_rebin p)) * ns < wl + Z.to_nat (Z.max 1 (h_rebin p)) /\ wl <= Z.to_nat (Z.max 1 (h_rebin p)) * ns;
  hs_wid : (0 < pmt_wid (h_pmap p))%Q;
  hs_thr : (0 <= thr_csum_s2 (h_pmap p))%Q;
  hs_r : 0 < r; hs_m : 0 < m;
  hs_ratio : Qfloor (sipm_wid (h_pmap p) / pmt_wid (h_pmap p)) = Z.of_nat r;
  hs_rebin : k_rebin (s2_params (h_pmap p)) = Z.of_nat (r * m);
  hs_long : ns <= r * nss }.

Lemma array_shape data db stop w t0 n z : array_of data db stop w t0 n z -> len (map (map inject_Z) z) = len db /\ Forall (fun x => len x = Z.to_nat n) (map (map inject_Z) z).
Proof. intros (L & F & _). rewrite map_length. split; [exact L|]. clear L. induction F as [|x l H F IH]; [constructor|]. cbn [map]. constructor; [rewrite map_length; lia|exact IH]. Qed.
Lemma row_shapes pdb sdb c e rows row : rows_of pdb sdb c e rows -> In row rows ->
  (len (map (map inject_Z) (br_pmt row)) = len pdb /\ Forall (fun x => len x = Z.to_nat (Qfloor (BuffersModel.buffer_len c / BuffersModel.pmt_wid c))) (map (map inject_Z) (br_pmt row))) /\
  (len (map (map inject_Z) (br_sipm row)) = len sdb /\ Forall (fun x => len x = Z.to_nat (Qfloor (BuffersModel.buffer_len c / BuffersModel.sipm_wid c))) (map (map inject_Z) (br_sipm row))).
Proof.
  intros [H1 H2] Hr. assert (D : detected e). { unfold detected in *. destruct (BuffersModel.sim_pmts e); [rewrite H1 in Hr by tauto; easy|]. destruct (BuffersModel.sim_sipms e); [rewrite H1 in Hr by tauto; easy|]. split; discriminate. }
  destruct (H2 D) as (trs & p0 & n & sP & sS & _ & _ & _ & _ & F). assert (R : exists ji, row_in_file pdb sdb c e p0 sP sS (fst ji) (snd ji) row).
  { clear -F Hr. induction F as [|ji x l rows H F IH]; [easy|]. destruct Hr as [<-|Hr]; [now exists ji|auto]. }
  destruct R as (ji & _ & _ & _ & tb & _ & A1 & A2). split; eapply array_shape; eassumption.
Qed.

Section Chain.
  Variables (float unit : string -> option Q) (is_pmt_name : string -> bool) (pmt_db sipm_db : list nat) (rate rate0 : Q) (draw : nat -> Q).
  Variables (f32 : Q -> Q) (rn : nat -> hyp_randoms) (pmts : list pmt_row) (sipms : list sim_row) (p : hparams).

  (** hypathia over the file of buffy, with the same database: a PMap for each trigger *)
  Theorem C114_hypathia mus b files pw sw r k run name ns r' m :
    ReadMc.effective_rate rate rate0 -> (forall n, (0 <= draw n /\ draw n < 1)%Q) -> StronglySorted lt pmt_db -> StronglySorted lt sipm_db ->
    whole mus (cf_max b) -> periods float unit files pw sw -> (forall f, In f files -> exists conf, good_sim float unit pmt_db sipm_db is_pmt_name f conf) ->
    let c := readout b (longest b) pw sw in BuffersSpec.good_cfg c r k -> NoDup (flat_map nf_events files) ->
    let wl := Z.to_nat (Qfloor (cf_buffer b / pw)) in let nss := Z.to_nat (Qfloor (cf_buffer b / sw)) in
    map pm_id pmts = pmt_db -> Forall (fun d => pm_active d = true) pmts -> len sipms = len sipm_db -> hyp_setup p wl ns nss r' m -> selection_fits (map ss_row sipms) (cut (h_pmap p)) -> (N.of_nat ns <= 65536)%N ->
    exists o evs rowss, buffy_run float unit is_pmt_name pmt_db sipm_db mus b rate draw files = Ok (Some o) /\ Forall2 (rows_of pmt_db sipm_db c) evs rowss /\ bt_rows o = List.concat rowss /\
      match bt_rows o with
      | [] => hypathia f32 rn pmts sipms p wl nss (fun _ => buffy_file run o) [name] = Err IndexError
      | rows =>
        (forall i row, nth_error rows i = Some row -> len (hr_noise (rn i)) = len sipms /\ Forall (fun w => len w = nss) (hr_noise (rn i)) /\ counts_fit (hr_sipm (rn i)) sipms (map (map inject_Z) (br_sipm row)) (hr_noise (rn i))) ->
        exists o2 pms, hypathia f32 rn pmts sipms p wl nss (fun _ => buffy_file run o) [name] = Ok o2 /\
          Forall2 (fun iw pm => right_light pmts sipms p ns r' m (rn (fst iw)) (snd iw) pm) (combine (seq 0 (len rows)) (map (as_event run) rows)) pms /\ FrunSpec.right_tables f32 (map (as_event run) rows) pms o2
      end.
  Proof using Type.
    intros Hr Hd Sp Ss Hw Hp Hg c Gc Nd wl nss Ids Act Ls Hs Sel Hn.
    destruct (C114_buffy float unit is_pmt_name pmt_db sipm_db rate rate0 draw Hr Hd Sp Ss mus b files pw sw r k Hw Hp Hg Gc) as (o & evs & rowss & parts & Run & _ & _ & R & Eo & _ & _ & _ & _ & Nn & _). fold c in R.
    exists o, evs, rowss. split; [exact Run|]. split; [exact R|]. split; [exact Eo|]. specialize (Nn Nd). pose proof (C114_read run o name) as Rd.
    assert (Sh : forall row, In row (bt_rows o) -> (len (map (map inject_Z) (br_pmt row)) = len pmts /\ Forall (fun x => len x = wl) (map (map inject_Z) (br_pmt row))) /\ (len (map (map inject_Z) (br_sipm row)) = len sipms /\ Forall (fun x => len x = nss) (map (map inject_Z) (br_sipm row)))).
    { intros row Hrow. rewrite Eo in Hrow. apply in_concat in Hrow. destruct Hrow as (rows & Hrs & Hrow). assert (E : exists e, rows_of pmt_db sipm_db c e rows). { clear -R Hrs. induction R as [|e x evs rowss H F IH]; [easy|]. destruct Hrs as [<-|Hrs]; [now exists e|auto]. }
      destruct E as (e & He). destruct (row_shapes _ _ _ _ _ _ He Hrow) as ((A1 & A2) & (A3 & A4)). rewrite Ls. rewrite <- Ids, (map_length pm_id) in A1. split; [split; [exact A1|exact A2]|split; [exact A3|exact A4]]. }
    clear Eo R. destruct (bt_rows o) as [|x rows]; [unfold hypathia, pmaps_of_files; rewrite Rd; reflexivity|]. cbv beta iota zeta. set (l := x :: rows) in *. intros Hok.
    apply (C111_hypathia f32 rn pmts sipms p wl ns nss r' m (fun _ => buffy_file run o) [name] (map (as_event run) l) Rd) in Sel; try assumption.
    - destruct Sel as (o2 & pms & S1 & S2 & S3). exists o2, pms. split; [exact S1|]. split; [|exact S3]. now rewrite map_length in S2.
    - intros i w Hi. rewrite nth_error_map in Hi. destruct (nth_error l i) as [row|] eqn:Er; [|discriminate]. injection Hi as <-. destruct (Hok i row Er) as (N1 & N2 & N3). destruct (Sh row (nth_error_In _ _ Er)) as ((A1 & A2) & (A3 & A4)). destruct Hs as [Q1 Q2 Q3 Q4 Q5 Q6 Q7 Q8].
      split; [split; [|exact N3]|intros ch Hc; discriminate]. split; cbn [as_event w_pmt w_sipm PeaksModel.cols PeaksModel.rows]; try assumption.
    - rewrite map_map. exact Nn.
    - rewrite Ids. clear -Sp. induction Sp as [|a l S IH F]; constructor; [|exact IH]. intros H. rewrite Forall_forall in F. specialize (F a H). lia.
  Qed.
End Chain.
Print Assumptions C114_hypathia.

(** the run of C114_ex, with SiPMs of the same number *)
Definition bc_pmt (i : nat) := {| pm_id := i; pm_active := true; pm_clean := 1; pm_blr := 1; pm_gain := 2 |}.
Definition bc_sipms := [HypaProps.hex_sipm true 2; HypaProps.hex_sipm true 1].
Definition bc_par := {| h_rebin := 2; h_rms := 1; h_noise_cut := 1 # 2; h_padding := 1; h_pmap := {|
  n_baseline := 0; n_maw := 0; thr_maw := 0; thr_csum_s1 := 1; thr_csum_s2 := 2;
  s1_params := {| k_time := {| mn := 0; mx := 4 |}; k_length := {| mn := 1; mx := 10 |}; k_stride := 2; k_rebin := 1 |};
  s2_params := {| k_time := {| mn := 5; mx := 50 |}; k_length := {| mn := 1; mx := 100 |}; k_stride := 2; k_rebin := 5 |};
  pmt_wid := 1; sipm_wid := 5; cut := NoCut |} |}.
Definition bc_randoms (i : nat) : hyp_randoms := {| hr_pmt := HypaProps.hex_draw; hr_sipm := HypaProps.hex_draw; hr_noise := repeat (repeat 5%Q 3) 2 |}.
Lemma bc_fit row : In row [ [[0; 0; 0]; [0; 4; 0]]; [[0; 0; 0]; [0; 0; 0]] ]%Z -> counts_fit HypaProps.hex_draw bc_sipms (map (map inject_Z) row) (repeat (repeat 5%Q 3) 2).
Proof.
  intros Hr s d w n fl j H1 H2 H3 [L F] Hj. assert (N : Qeqb 2 0 = false /\ Qeqb 1 0 = false) by (split; reflexivity); destruct N as [N2 N1].
  destruct Hr as [<-|[<-|[]]]; (destruct s as [|[|s]]; cbn [nth_error bc_sipms map repeat] in *; [..|destruct s; discriminate]; injection H1 as <-; injection H2 as <-; injection H3 as <-;
  cbn [HypaProps.hex_sipm ss_row sm_gain ss_sigma List.length] in *;
  specialize (F j Hj); rewrite ?N1, ?N2 in F; cbn zeta in F; change (Qeqb (0 / 2) 0) with true in F; change (Qeqb (0 / 1) 0) with true in F; cbv iota in F;
  do 3 (destruct j as [|j]; [cbn [nth inject_Z] in *; unfold inject_Z in *; lra|]); lia).
Qed.
Example C114_hypathia_hypotheses :
  map pm_id [bc_pmt 0; bc_pmt 2] = [0; 2] /\ Forall (fun d => pm_active d = true) [bc_pmt 0; bc_pmt 2] /\ hyp_setup bc_par 30 15 3 5 1 /\ selection_fits (map ss_row bc_sipms) (cut (h_pmap bc_par)) /\
  Z.to_nat (Qfloor (cf_buffer bfy_conf / (100 * 1))) = 30 /\ Z.to_nat (Qfloor (cf_buffer bfy_conf / (1 * 1000))) = 3 /\
  match bfy_run [bfy_file] with
  | Ok (Some o) => bt_rows o <> [] /\ forall i row, nth_error (bt_rows o) i = Some row -> len (hr_noise (bc_randoms i)) = len bc_sipms /\ Forall (fun w => len w = 3) (hr_noise (bc_randoms i)) /\
                     counts_fit (hr_sipm (bc_randoms i)) bc_sipms (map (map inject_Z) (br_sipm row)) (hr_noise (bc_randoms i))
  | _ => False
  end.
Proof.
  split; [reflexivity|]. split; [repeat constructor|]. split; [split; try reflexivity; try (cbn; lia); try (cbn; lra)|]. split; [exact I|]. split; [reflexivity|]. split; [reflexivity|].
  assert (X : match bfy_run [bfy_file] with Ok (Some o) => map br_sipm (bt_rows o) = [ [[0; 0; 0]; [0; 4; 0]]; [[0; 0; 0]; [0; 0; 0]] ]%Z | _ => False end) by (vm_compute; reflexivity).
  destruct (bfy_run [bfy_file]) as [[o|]|]; try contradiction. split; [destruct (bt_rows o); discriminate|]. intros i row Hi. split; [reflexivity|]. split; [repeat constructor|]. apply bc_fit. rewrite <- X. apply in_map. exact (nth_error_In _ _ Hi).
Qed.
Example C114_hypathia_ex : match bfy_run [bfy_file] with
  | Ok (Some o) => match hypathia (fun x => x) bc_randoms [bc_pmt 0; bc_pmt 2] bc_sipms bc_par 30 3 (fun _ => buffy_file 5 o) ["b"]%string with
                   | Ok o2 => it_in o2 = 2 /\ it_out o2 = 2 /\ it_numbers o2 = [28; 29]%Z | Err _ => False end
  | _ => False end.
Proof. vm_compute. repeat split. Qed.
