(** C115: hypathia over the file of detsim *)
From Coq Require Import String Qround Lia.
From Verif Require ReadModel ReadSpec ReadMc BuffersModel BuffersSpec DetsimModel S1Spec DsimModel DsimSpec BfyModel BfySpec BfyProps BfyChain DetModel DetSpec DetProps.
From Verif Require Import Base ConfigModel ConfigSpec TablesModel PeaksModel PeaksSpec CalibModel CalibSpec IreneModel IreneSpec PmapioModel PmapioSpec HypaModel HypaSpec FrunModel HrunModel.
From Verif Require FrunSpec.
From Verif Require Import HrunSpec HrunProps.
Import BuffersModel(out_row). Import BfyModel BfySpec BfyProps DetModel DetSpec DetProps BfyChain.
Local Open Scope nat_scope.

Lemma det_row_shapes sqrtQ emitted s1_lt p lt_pmt lt_sipm A B k c d e rows row : simulated sqrtQ emitted s1_lt p lt_pmt lt_sipm A B k c d e rows -> In row rows -> energetic A c e /\ lit sqrtQ p A c d e \/ ~ (energetic A c e /\ lit sqrtQ p A c d e) ->
  (len (map (map inject_Z) (br_pmt row)) = DetsimModel.num_sensors lt_pmt /\ Forall (fun x => len x = Z.to_nat (Qfloor (BuffersModel.buffer_len c / BuffersModel.pmt_wid c))) (map (map inject_Z) (br_pmt row))) /\
  (len (map (map inject_Z) (br_sipm row)) = DetsimModel.num_sensors lt_sipm /\ Forall (fun x => len x = Z.to_nat (Qfloor (BuffersModel.buffer_len c / BuffersModel.sipm_wid c))) (map (map inject_Z) (br_sipm row))).
Proof.
  intros [H1 H2] Hr [[En Li]|N]; [|rewrite (H1 N) in Hr; easy]. destruct (H2 En Li) as (io & sc & els & dz & tmin & ln & n & m & P & S & trs & _ & _ & _ & _ & (vals & _ & _ & _ & LP & _) & (_ & _ & LS & _) & _ & _ & F).
  assert (R : exists ji, det_row c e P S (fst ji) (snd ji) row). { clear -F Hr. induction F as [|ji x l rows H F IH]; [easy|]. destruct Hr as [<-|Hr]; [now exists ji|auto]. }
  destruct R as (ji & _ & _ & _ & tb & _ & (_ & M1 & L1 & _) & (_ & M2 & L2 & _)). cbn [ints PeaksModel.rows] in L1, L2. rewrite LP in L1. rewrite LS in L2. split; split; assumption.
Qed.

Section Chain.
  Variables (sqrtQ emitted : Q -> Q) (s1_lt : list Q -> list Q -> list Q -> result (list (list Q))) (s1_sensors : nat) (ph : DsimModel.physics) (lt_pmt lt_sipm : DetsimModel.light_table) (ACTIVE BUFFER : nat).
  Variables (pmt_db sipm_db : list nat) (dn : nat -> det_draws).
  Hypothesis square_root : forall q, (0 <= sqrtQ q)%Q.
  Hypothesis square_root0 : forall q, (q == 0 -> sqrtQ q == 0)%Q.
  Hypothesis emission_ok : S1Spec.emission emitted.
  Hypothesis phys : (0 < DsimModel.ws ph /\ 0 < DsimModel.wi ph /\ 0 < DsimModel.drift_v ph /\ 0 <= DsimModel.trans ph /\ 0 <= DsimModel.longi ph /\ 0 < DsimModel.el_dv ph)%Q.
  Hypotheses (table_pmt : DsimSpec.good_table lt_pmt) (table_sipm : DsimSpec.good_table lt_sipm).
  Hypothesis same_pmts : s1_sensors = DetsimModel.num_sensors lt_pmt.
  Hypothesis table_s1 : forall hits, exists values, s1_lt (map DetsimModel.hx hits) (map DetsimModel.hy hits) (map DetsimModel.hz hits) = Ok values /\ len values = len hits /\ forall row q, In row values -> In q row -> (0 <= q)%Q.
  Hypotheses (all_pmts : len pmt_db = DetsimModel.num_sensors lt_pmt) (all_sipms : len sipm_db = DetsimModel.num_sensors lt_sipm).
  Variables (rate rate0 : Q) (draw : nat -> Q).
  Hypothesis Hr : ReadMc.effective_rate rate rate0.
  Hypothesis Hd : forall n, (0 <= draw n /\ draw n < 1)%Q.
  Notation detsim := (detsim_run sqrtQ emitted s1_lt s1_sensors ph lt_pmt lt_sipm ACTIVE BUFFER pmt_db sipm_db dn).
  Variables (f32 : Q -> Q) (rn : nat -> hyp_randoms) (pmts : list pmt_row) (sipms : list sim_row) (p : hparams).

  (** hypathia over the file of detsim, with the same database: a PMap for each trigger *)
  Theorem C115_hypathia mus b pw sw files r k M run name ns r' m :
    whole mus (cf_max b) -> let c := readout b (longest b) pw sw in BuffersSpec.good_cfg c r k -> (longest b == qn M * pw)%Q -> (forall f, In f files -> good_hits ACTIVE BUFFER f) ->
    let wl := Z.to_nat (Qfloor (cf_buffer b / pw)) in let nss := Z.to_nat (Qfloor (cf_buffer b / sw)) in
    map pm_id pmts = pmt_db -> NoDup pmt_db -> Forall (fun d => pm_active d = true) pmts -> len sipms = len sipm_db -> hyp_setup p wl ns nss r' m -> selection_fits (map ss_row sipms) (cut (h_pmap p)) -> (N.of_nat ns <= 65536)%N ->
    exists evs parts, evs = List.concat parts /\ Forall2 (from_file rate0) files parts /\
    ((forall i e, nth_error evs i = Some e -> draws_fit sqrtQ ph ACTIVE c (dn i) e) -> NoDup (map di_event evs) ->
     exists o rowss, detsim mus b pw sw rate draw files = Ok o /\ Forall2 (fun ie rows => simulated sqrtQ emitted s1_lt ph lt_pmt lt_sipm ACTIVE BUFFER k c (dn (fst ie)) (snd ie) rows) (combine (seq 0 (len evs)) evs) rowss /\ dt_rows o = List.concat rowss /\
      match dt_rows o with
      | [] => hypathia f32 rn pmts sipms p wl nss (fun _ => detsim_file run o) [name] = Err IndexError
      | rows =>
        (forall i row, nth_error rows i = Some row -> len (hr_noise (rn i)) = len sipms /\ Forall (fun w => len w = nss) (hr_noise (rn i)) /\ counts_fit (hr_sipm (rn i)) sipms (map (map inject_Z) (br_sipm row)) (hr_noise (rn i))) ->
        exists o2 pms, hypathia f32 rn pmts sipms p wl nss (fun _ => detsim_file run o) [name] = Ok o2 /\
          Forall2 (fun iw pm => right_light pmts sipms p ns r' m (rn (fst iw)) (snd iw) pm) (combine (seq 0 (len rows)) (map (as_event run) rows)) pms /\ FrunSpec.right_tables f32 (map (as_event run) rows) pms o2
      end).
  Proof using All.
    intros Hw c Gc Ht Hg wl nss Ids Ndb Act Ls Hs Sel Hn.
    destruct (C115_detsim sqrtQ emitted s1_lt s1_sensors ph lt_pmt lt_sipm ACTIVE BUFFER pmt_db sipm_db dn square_root square_root0 emission_ok phys table_pmt table_sipm same_pmts table_s1 all_pmts all_sipms rate rate0 draw Hr Hd mus b pw sw files r k M Hw Gc Ht Hg) as (evs & parts & Ee & Fp & Go). fold c in Go.
    exists evs, parts. split; [exact Ee|]. split; [exact Fp|]. intros Hfit Nev. destruct (Go Hfit) as (o & rowss & Run & R & Eo & Fl & _ & (seen & Ks & _) & _ & _ & Nn & _). clear Go.
    exists o, rowss. split; [exact Run|]. split; [exact R|]. split; [exact Eo|]. specialize (Nn Nev). pose proof (C115_read run o name) as Rd.
    assert (Sh : forall row, In row (dt_rows o) -> (len (map (map inject_Z) (br_pmt row)) = len pmts /\ Forall (fun x => len x = wl) (map (map inject_Z) (br_pmt row))) /\ (len (map (map inject_Z) (br_sipm row)) = len sipms /\ Forall (fun x => len x = nss) (map (map inject_Z) (br_sipm row)))).
    { intros row Hrow. rewrite Eo in Hrow. apply in_concat in Hrow. destruct Hrow as (rows & Hrs & Hrow).
      assert (E : exists ie, simulated sqrtQ emitted s1_lt ph lt_pmt lt_sipm ACTIVE BUFFER k c (dn (fst ie)) (snd ie) rows /\ (energetic ACTIVE c (snd ie) /\ lit sqrtQ ph ACTIVE c (dn (fst ie)) (snd ie) \/ ~ (energetic ACTIVE c (snd ie) /\ lit sqrtQ ph ACTIVE c (dn (fst ie)) (snd ie)))).
      { clear -R Hrs Ks. revert seen Ks. induction R as [|ie x ievs rowss H F IH]; intros seen Ks; [easy|]. cbn [combine] in Ks. inversion Ks as [|? ? out P K|? ? out P K]; subst; (destruct Hrs as [<-|Hrs]; [exists ie; split; [exact H|]; cbn [fst] in P; tauto|exact (IH Hrs _ K)]). }
      destruct E as (ie & He & D). destruct (det_row_shapes _ _ _ _ _ _ _ _ _ _ _ _ _ _ He Hrow D) as ((A1 & A2) & (A3 & A4)). rewrite Ls, all_sipms. rewrite <- all_pmts, <- Ids, (map_length pm_id) in A1. split; [split; [exact A1|exact A2]|split; [exact A3|exact A4]]. }
    clear Eo R Fl Ks. destruct (dt_rows o) as [|x rows]; [unfold hypathia, pmaps_of_files; rewrite Rd; reflexivity|]. cbv beta iota zeta. set (l := x :: rows) in *. intros Hok.
    apply (C111_hypathia f32 rn pmts sipms p wl ns nss r' m (fun _ => detsim_file run o) [name] (map (as_event run) l) Rd) in Sel; try assumption.
    - destruct Sel as (o2 & pms & S1 & S2 & S3). exists o2, pms. split; [exact S1|]. split; [|exact S3]. now rewrite map_length in S2.
    - intros i w Hi. rewrite nth_error_map in Hi. destruct (nth_error l i) as [row|] eqn:Er; [|discriminate]. injection Hi as <-. destruct (Hok i row Er) as (N1 & N2 & N3). destruct (Sh row (nth_error_In _ _ Er)) as ((A1 & A2) & (A3 & A4)). destruct Hs as [Q1 Q2 Q3 Q4 Q5 Q6 Q7 Q8].
      split; [split; [|exact N3]|intros ch Hc; discriminate]. split; cbn [as_event w_pmt w_sipm PeaksModel.cols PeaksModel.rows]; try assumption.
    - rewrite map_map. exact Nn.
    - now rewrite Ids.
  Qed.
End Chain.
Print Assumptions C115_hypathia.

(** the run of C115_ex *)
Definition dc_sipms := [HypaProps.hex_sipm true 2].
Definition dc_par := {| h_rebin := 1; h_rms := 1; h_noise_cut := 1 # 2; h_padding := 1; h_pmap := {|
  n_baseline := 0; n_maw := 0; thr_maw := 0; thr_csum_s1 := 1; thr_csum_s2 := 2;
  s1_params := {| k_time := {| mn := 0; mx := 4 |}; k_length := {| mn := 1; mx := 10 |}; k_stride := 2; k_rebin := 1 |};
  s2_params := {| k_time := {| mn := 5; mx := 50 |}; k_length := {| mn := 1; mx := 100 |}; k_stride := 2; k_rebin := 2 |};
  pmt_wid := 1; sipm_wid := 2; cut := NoCut |} |}.
Definition dc_randoms (i : nat) : hyp_randoms := {| hr_pmt := HypaProps.hex_draw; hr_sipm := HypaProps.hex_draw; hr_noise := [[5; 5]]%Q |}.
Example C115_hypathia_hypotheses :
  map pm_id [bc_pmt 0; bc_pmt 2] = [0; 2] /\ NoDup [0; 2] /\ Forall (fun d => pm_active d = true) [bc_pmt 0; bc_pmt 2] /\ hyp_setup dc_par 4 4 2 2 1 /\ selection_fits (map ss_row dc_sipms) (cut (h_pmap dc_par)) /\
  Z.to_nat (Qfloor (cf_buffer det_conf / 1)) = 4 /\ Z.to_nat (Qfloor (cf_buffer det_conf / 2)) = 2 /\
  match det_run det_files with
  | Ok o => dt_rows o <> [] /\ forall i row, nth_error (dt_rows o) i = Some row -> len (hr_noise (dc_randoms i)) = len dc_sipms /\ Forall (fun w => len w = 2) (hr_noise (dc_randoms i)) /\
              counts_fit (hr_sipm (dc_randoms i)) dc_sipms (map (map inject_Z) (br_sipm row)) (hr_noise (dc_randoms i))
  | _ => False
  end.
Proof.
  split; [reflexivity|]. split; [repeat constructor; cbn; intuition discriminate|]. split; [repeat constructor|]. split; [split; try reflexivity; try (cbn; lia); try (cbn; lra)|]. split; [exact I|]. split; [reflexivity|]. split; [reflexivity|].
  assert (X : match det_run det_files with Ok o => map br_sipm (dt_rows o) = [ [[0; 0]] ]%Z | _ => False end) by (vm_compute; reflexivity).
  destruct (det_run det_files) as [o|]; try contradiction. split; [destruct (dt_rows o); discriminate|]. intros i row Hi. split; [reflexivity|]. split; [repeat constructor|]. apply nth_error_In in Hi. apply (in_map br_sipm) in Hi. rewrite X in Hi. destruct Hi as [<-|[]].
  intros s d w n fl j H1 H2 H3 [L F] Hj. destruct s as [|s]; cbn [nth_error dc_sipms map dc_randoms hr_noise] in *; [|destruct s; discriminate]. injection H1 as <-. injection H2 as <-. injection H3 as <-.
  cbn [HypaProps.hex_sipm ss_row sm_gain ss_sigma List.length] in *. specialize (F j Hj). cbn zeta in F. change (Qeqb 2 0) with false in F. change (Qeqb (0 / 2) 0) with true in F. cbv iota in F.
  destruct j as [|[|j]]; [..|lia]; cbn [nth inject_Z map] in *; unfold inject_Z in *; change (Qeqb (0 / 2) 0) with true in F; cbv iota in F; lra.
Qed.
Example C115_hypathia_ex : match det_run det_files with
  | Ok o => match hypathia (fun x => x) dc_randoms [bc_pmt 0; bc_pmt 2] dc_sipms dc_par 4 2 (fun _ => detsim_file 5 o) ["d"]%string with
            | Ok o2 => it_in o2 = 1 /\ it_numbers o2 = [9]%Z | Err _ => False end
  | _ => False end.
Proof. vm_compute. repeat split. Qed.
Print Assumptions C115_hypathia_hypotheses.
