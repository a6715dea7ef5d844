(** Proofs for C118: generators one after the other, and the runs from a state that already has tables *)
From Coq Require Import String.
From Verif Require Import Base ConfigModel TablesModel PeaksModel BuffersModel.
From Verif Require Import ReadModel.
From Verif Require IreneModel IreneModel.
From Verif Require Import PmapioModel FiltersModel XyModel HitsModel CorrModel EsmModel SophModel SoeModel KrModel PreadModel DorModel SrunModel.
From Verif Require Import PaolinaModel TopoModel ErunModel BeerModel BrunModel IsaModel FrunModel HrunModel IsiModel JobModel JobSpec.
Local Open Scope nat_scope.

Definition gen_app {A} (g h : generated A) : generated A := match g with (l, Some e) => (l, Some e) | (l, None) => let (m, e) := h in (l ++ m, e) end.

Lemma over_app {F A} (rd : F -> generated A) f1 : forall f2, over_files rd (f1 ++ f2) = gen_app (over_files rd f1) (over_files rd f2).
Proof.
  induction f1 as [|f f1 IH]; intros f2; simpl; [destruct (over_files rd f2); reflexivity|].
  destruct (rd f) as [l [e|]]; [reflexivity|]. rewrite IH. destruct (over_files rd f1) as [m [e|]]; [reflexivity|]. simpl. destruct (over_files rd f2). rewrite app_assoc. reflexivity.
Qed.
Lemma wf_app {E W S0 T C} (o : string -> h5file E W S0 T C) f1 : forall f2, wf_from_files o (f1 ++ f2) = gen_app (wf_from_files o f1) (wf_from_files o f2).
Proof.
  induction f1 as [|f f1 IH]; intros f2; simpl; [destruct (wf_from_files o f2); reflexivity|].
  destruct (wf_from_file (o f)) as [l [e|]]; [reflexivity|]. rewrite IH. destruct (wf_from_files o f1) as [m [e|]]; [reflexivity|]. simpl. destruct (wf_from_files o f2). rewrite app_assoc. reflexivity.
Qed.
Lemma skipn_more {A} (l : list A) a b : a <= b -> skipn a l = firstn (b - a) (skipn a l) ++ skipn b l.
Proof.
  revert a b. induction l as [|x l IH]; intros [|a] [|b] H; try lia; try (simpl; rewrite ?firstn_nil; reflexivity).
  - change (S b - 0) with (S b). change (skipn 0 (x :: l)) with (x :: l). symmetry. apply firstn_skipn.
  - simpl. apply IH. lia.
Qed.
Lemma ranged_app {A} (g : generated A) a b (c : option nat) : a <= b -> match c with None => True | Some c => b < c end ->
  ranged (a, c) g = gen_app (ranged (a, Some b) g) (ranged (b, c) g).
Proof.
  destruct g as [l e]. intros H1 H2. unfold ranged.
  destruct (Nat.leb_spec b a) as [L|L].
  - assert (b = a) by lia. subst. destruct (Nat.leb_spec (List.length l) a) as [L2|L2]; [|unfold gen_app; destruct c as [c|]; [destruct (c <=? a); [|destruct (c <=? List.length l)]|]; reflexivity].
    assert (E : skipn a l = []) by (apply skipn_all2; exact L2). rewrite E. destruct c as [c|]; [|destruct e; reflexivity].
    destruct (Nat.leb_spec c a) as [L3|L3]; [lia|]. destruct (Nat.leb_spec c (List.length l)); [lia|]. destruct e; reflexivity.
  - destruct (Nat.leb_spec b (List.length l)) as [L2|L2].
    + unfold gen_app. destruct c as [c|].
      * destruct (Nat.leb_spec c a); [lia|]. destruct (Nat.leb_spec c b); [lia|]. destruct (Nat.leb_spec c (List.length l)) as [L3|L3].
        -- f_equal. assert (Hab : a <= b) by lia. rewrite (skipn_more l a b Hab) at 1. rewrite firstn_app. f_equal.
           ++ rewrite firstn_firstn. f_equal. lia.
           ++ rewrite firstn_length, skipn_length. f_equal. lia.
        -- f_equal. apply skipn_more. lia.
      * f_equal. apply skipn_more. lia.
    + destruct c as [c|].
      * destruct (Nat.leb_spec c a); [lia|]. destruct (Nat.leb_spec c (List.length l)); [lia|]. destruct (Nat.leb_spec c b); [lia|]. destruct e; [reflexivity|].
        simpl. rewrite (skipn_all2 (n := b)) by lia. rewrite app_nil_r. reflexivity.
      * destruct e; [reflexivity|]. simpl. rewrite (skipn_all2 (n := b)) by lia. rewrite app_nil_r. reflexivity.
Qed.
Lemma ranged_all {A} (g : generated A) : ranged (0, None) g = g.
Proof. destruct g; reflexivity. Qed.

Section Jobs.
  Context {R A O : Type}.
  Variables (run : R -> list A -> O -> result O) (join : O -> O -> O) (empty : O) (later : O -> R -> R).
  Hypothesis Happ : forall r a b o, run r (a ++ b) o = rbind (run r a o) (run r b).
  Hypothesis Hjoin : forall items r o o1, run r items (join o o1) = rbind (run (later o r) items o1) (fun o2 => Ok (join o o2)).
  Hypothesis Hempty : forall o, join o empty = o.
  Definition job (r : R) (g : generated A) : result O := let (items, e) := g in rbind (run r items empty) (fun o => match e with None => Ok o | Some e => Err e end).
  Lemma jobs : forall r g h, job r (gen_app g h) = then_job join (job r g) (fun o => job (later o r) h).
  Proof using Happ Hjoin Hempty.
    intros r [l [e|]] [m e2]; unfold job, gen_app, then_job.
    - destruct (run r l empty); reflexivity.
    - rewrite Happ. destruct (run r l empty) as [o|x]; [|reflexivity]. cbn [rbind].
      rewrite <- (Hempty o) at 1. rewrite Hjoin. destruct (run (later o r) m empty); [|reflexivity]. simpl. destruct e2; reflexivity.
  Qed.
End Jobs.

Lemma ab {A} (a b c : list A) : (a ++ b) ++ c = a ++ b ++ c.
Proof. symmetry. apply app_assoc. Qed.
Lemma add0 n : n + 0 = n. Proof. lia. Qed.
Ltac j_end := cbn [rbind do_filter do_rows do_info do_numbers do_in do_out do_passed do_failed so_filter so_valid so_rows so_hits so_info so_numbers so_in so_out so_passed so_failed
   eo_select eo_topology eo_summary eo_hits eo_tracks eo_kdst eo_info eo_numbers eo_in eo_out br_hits br_filter br_deco br_kdst br_info br_numbers br_in br_out br_passed br_failed
   is_select is_topology is_summary is_hits is_tracks is_kdst is_info is_numbers is_in is_out si_cwf si_sipm si_runs si_events si_numbers si_in
   dt_filter dt_runs dt_events dt_rwf dt_blr dt_sipm dt_numbers dt_in dt_passed
   it_pmaps it_indices it_peaks it_runs it_events it_trigger it_numbers it_in it_out t_s1 t_s2 t_si t_s1pmt t_s2pmt trg_types trg_channels].
Section Dor.
  Variables (xys : list (Q * Q)) (v : Q) (noise : list nat -> list Q -> Z -> list Q) (sw : Q -> Z) (ct : charge_type) (sqrt : Q -> Q) (atan : Q -> Q -> Q) (qthr : Q) (s : selector).
  Let run (_ : unit) := dorothea_run xys v noise sw ct sqrt atan qthr s.
  Lemma dor_app r a : forall b o, run r (a ++ b) o = rbind (run r a o) (run r b).
  Proof.
    unfold run. induction a as [|it a IH]; intros b o; [reflexivity|]. cbn [app dorothea_run].
    destruct (passed _); [|apply IH]. destruct (build_pointlike_event _ _ _ _ _ _ _ _ _); [|reflexivity]. cbn [rbind]. destruct (kr_store _); [|reflexivity]. cbn [rbind]. apply IH.
  Qed.
  Lemma dor_join items : forall r o o1, run r items (join_dorothea o o1) = rbind (run r items o1) (fun o2 => Ok (join_dorothea o o2)).
  Proof.
    unfold run. induction items as [|it items IH]; intros r o o1; [reflexivity|]. cbn [dorothea_run].
    destruct (passed _).
    - destruct (build_pointlike_event _ _ _ _ _ _ _ _ _); [|reflexivity]. cbn [rbind]. destruct (kr_store _); [|reflexivity]. cbn [rbind]. rewrite <- (IH tt). f_equal.
      unfold join_dorothea. j_end. rewrite !ab, <- !plus_n_Sm. reflexivity.
    - rewrite <- (IH tt). f_equal. unfold join_dorothea. j_end. rewrite !ab, <- !plus_n_Sm. reflexivity.
  Qed.
  Lemma dor_empty o : join_dorothea o no_output = o.
  Proof. destruct o; unfold join_dorothea, no_output. j_end. rewrite !app_nil_r, !add0. reflexivity. Qed.
  Definition dor_jobs := jobs run join_dorothea no_output (fun _ r => r) dor_app dor_join dor_empty.
End Dor.

Section Soph.
  Variables (nearest : list (Q * Q * Q) -> Q * Q * Q -> nat) (xys : list (Q * Q)) (v : Q) (noise : list nat -> list Q -> Z -> list Q) (sw : Q -> Z) (ct : charge_type) (sqrt : Q -> Q) (atan : Q -> Q -> Q) (qthr : Q) (s : selector).
  Variables (rebin method : arg) (q_thr : Q) (same_peak : bool) (corr : option corrections).
  Let run (_ : unit) := sophronia_run nearest xys v noise sw ct sqrt atan qthr s rebin method q_thr same_peak corr.
  Lemma soph_app r a : forall b o, run r (a ++ b) o = rbind (run r a o) (run r b).
  Proof.
    unfold run. induction a as [|it a IH]; intros b o; [reflexivity|]. cbn [app sophronia_run].
    destruct (passed _); [|apply IH]. destruct (build_pointlike_event _ _ _ _ _ _ _ _ _); [|reflexivity]. cbn [rbind]. destruct (kr_store _); [|reflexivity]. cbn [rbind].
    destruct (sophronia_hits _ _ _ _ _ _ _ _ _ _ _ _ _ _ _ _) as [[[h|]|]|]; cbn [rbind]; try apply IH. reflexivity.
  Qed.
  Lemma soph_join items : forall r o o1, run r items (join_sophronia o o1) = rbind (run r items o1) (fun o2 => Ok (join_sophronia o o2)).
  Proof.
    unfold run. induction items as [|it items IH]; intros r o o1; [reflexivity|]. cbn [sophronia_run].
    destruct (passed _).
    - destruct (build_pointlike_event _ _ _ _ _ _ _ _ _); [|reflexivity]. cbn [rbind]. destruct (kr_store _); [|reflexivity]. cbn [rbind].
      destruct (sophronia_hits _ _ _ _ _ _ _ _ _ _ _ _ _ _ _ _) as [[[h|]|]|]; cbn [rbind]; try reflexivity;
        rewrite <- (IH tt); f_equal; unfold join_sophronia; j_end; rewrite !ab, <- !plus_n_Sm; reflexivity.
    - rewrite <- (IH tt). f_equal. unfold join_sophronia. j_end. rewrite !ab, <- !plus_n_Sm. reflexivity.
  Qed.
  Lemma soph_empty o : join_sophronia o nothing_done = o.
  Proof. destruct o; unfold join_sophronia, nothing_done. j_end. rewrite !app_nil_r, !add0. reflexivity. Qed.
  Definition soph_jobs := jobs run join_sophronia nothing_done (fun _ r => r) soph_app soph_join soph_empty.
End Soph.

Section Esm.
  Context {K : Type}.
  Variables (nearest : list (Q * Q * Q) -> Q * Q * Q -> nat) (others : hit -> nat) (round5 : Q -> Q) (paths : list voxel -> list voxel * (voxel -> voxel -> Q)) (norm : pos3 -> Q).
  Variables (m : list kbin) (dvs : list (option Q)) (method : norm_method) (xy : option region) (apply_temp apply_z : bool) (radius th : Q) (same_peak : bool).
  Variables (vox_size : Q * Q * Q) (strict : bool) (ethr : Q) (minv : nat) (blob : Q) (scan : option Q) (maxh : Z).
  Let run (_ : unit) := esmeralda_run (K := K) nearest others round5 paths norm m dvs method xy apply_temp apply_z radius th same_peak vox_size strict ethr minv blob scan maxh.
  Lemma esm_app r a : forall b o, run r (a ++ b) o = rbind (run r a o) (run r b).
  Proof.
    unfold run. induction a as [|it a IH]; intros b o; [reflexivity|]. cbn [app esmeralda_run].
    destruct (esmeralda_hits _ _ _ _ _ _ _ _ _ _ _) as [hits|]; [|reflexivity]. cbn [rbind]. destruct (write_tracks_info _ _ _ _ _ _ _ _ _ _ _ _ _); [|reflexivity]. cbn [rbind]. apply IH.
  Qed.
  Lemma esm_join items : forall r o o1, run r items (join_esmeralda o o1) = rbind (run r items o1) (fun o2 => Ok (join_esmeralda o o2)).
  Proof.
    unfold run. induction items as [|it items IH]; intros r o o1; [reflexivity|]. cbn [esmeralda_run].
    destruct (esmeralda_hits _ _ _ _ _ _ _ _ _ _ _) as [hits|]; [|reflexivity]. cbn [rbind]. destruct (write_tracks_info _ _ _ _ _ _ _ _ _ _ _ _ _); [|reflexivity]. cbn [rbind].
    rewrite <- (IH tt). f_equal. unfold join_esmeralda. j_end. rewrite !ab, <- !plus_n_Sm. reflexivity.
  Qed.
  Lemma esm_empty (o : eout K) : join_esmeralda o no_event_done = o.
  Proof. destruct o; unfold join_esmeralda, no_event_done. j_end. rewrite !app_nil_r, !add0. reflexivity. Qed.
  Definition esm_jobs := jobs run join_esmeralda no_event_done (fun _ r => r) esm_app esm_join esm_empty.
End Esm.

Section Beer.
  Context {K : Type}.
  Variables (nearest : list (Q * Q * Q) -> Q * Q * Q -> nat) (deconvolution : list (Q * Q * Q) -> Q -> list (Q * Q * Q)) (round6 : Q -> Q).
  Variables (m : list kbin) (dvs : list (option Q)) (method : norm_method) (xy : option region) (c : beer_conf).
  Let run (_ : unit) := beersheba_run (K := K) nearest deconvolution round6 m dvs method xy c.
  Lemma beer_app r a : forall b o, run r (a ++ b) o = rbind (run r a o) (run r b).
  Proof.
    unfold run. induction a as [|it a IH]; intros b o; [reflexivity|]. cbn [app beersheba_run].
    destruct (beersheba_event _ _ _ _ _ _ _ _ _ _); [|reflexivity]. cbn [rbind]. apply IH.
  Qed.
  Lemma beer_join items : forall r o o1, run r items (join_beersheba o o1) = rbind (run r items o1) (fun o2 => Ok (join_beersheba o o2)).
  Proof.
    unfold run. induction items as [|it items IH]; intros r o o1; [reflexivity|]. cbn [beersheba_run].
    destruct (beersheba_event _ _ _ _ _ _ _ _ _ _) as [b|]; [|reflexivity]. cbn [rbind]. cbv zeta.
    rewrite <- (IH tt). f_equal. unfold join_beersheba. destruct (bo_passed b); j_end; rewrite !ab, <- !plus_n_Sm; reflexivity.
  Qed.
  Lemma beer_empty (o : bout K) : join_beersheba o nothing_deconvolved = o.
  Proof. destruct o; unfold join_beersheba, nothing_deconvolved. j_end. rewrite !app_nil_r, !add0. reflexivity. Qed.
  Definition beer_jobs := jobs run join_beersheba nothing_deconvolved (fun _ r => r) beer_app beer_join beer_empty.
End Beer.

Section Isa.
  Context {K : Type}.
  Variables (others : drow -> nat) (round5 : Q -> Q) (paths : list voxel -> list voxel * (voxel -> voxel -> Q)) (norm : pos3 -> Q).
  Variables (vox_size : Q * Q * Q) (strict : bool) (ethr : Q) (minv : nat) (blob : Q) (scan : option Q) (maxh : Z).
  Let run (_ : unit) := isaura_run (K := K) others round5 paths norm vox_size strict ethr minv blob scan maxh.
  Lemma isa_app r a : forall b o, run r (a ++ b) o = rbind (run r a o) (run r b).
  Proof.
    unfold run. induction a as [|it a IH]; intros b o; [reflexivity|]. cbn [app isaura_run].
    destruct (write_tracks_info _ _ _ _ _ _ _ _ _ _ _ _ _); [|reflexivity]. cbn [rbind]. apply IH.
  Qed.
  Lemma isa_join items : forall r o o1, run r items (join_isaura o o1) = rbind (run r items o1) (fun o2 => Ok (join_isaura o o2)).
  Proof.
    unfold run. induction items as [|it items IH]; intros r o o1; [reflexivity|]. cbn [isaura_run].
    destruct (write_tracks_info _ _ _ _ _ _ _ _ _ _ _ _ _); [|reflexivity]. cbn [rbind].
    rewrite <- (IH tt). f_equal. unfold join_isaura. j_end. rewrite !ab, <- !plus_n_Sm. reflexivity.
  Qed.
  Lemma isa_empty (o : isaout K) : join_isaura o no_event_read = o.
  Proof. destruct o; unfold join_isaura, no_event_read. j_end. rewrite !app_nil_r, !add0. reflexivity. Qed.
  Definition isa_jobs := jobs run join_isaura no_event_read (fun _ r => r) isa_app isa_join isa_empty.
End Isa.

Section Isi.
  Variables (butter : Q -> Q * Q * Q) (sqrt : Q -> Q) (pmts : list IreneModel.pmt_row) (n_baseline : nat) (s : shapes).
  Let run (_ : unit) := isidora_all butter sqrt pmts n_baseline s.
  Lemma isi_app r a : forall b o, run r (a ++ b) o = rbind (run r a o) (run r b).
  Proof. unfold run. induction a as [|it a IH]; intros b o; [reflexivity|]. cbn [app isidora_all]. destruct (isidora_event _ _ _ _ _ _); [|reflexivity]. cbn [rbind]. apply IH. Qed.
  Lemma isi_join items : forall r o o1, run r items (join_isidora o o1) = rbind (run r items o1) (fun o2 => Ok (join_isidora o o2)).
  Proof.
    unfold run. induction items as [|it items IH]; intros r o o1; [reflexivity|]. cbn [isidora_all].
    destruct (isidora_event _ _ _ _ _ _); [|reflexivity]. cbn [rbind].
    rewrite <- (IH tt). f_equal. unfold join_isidora. j_end. rewrite !ab, <- !plus_n_Sm. reflexivity.
  Qed.
  Lemma isi_empty o : join_isidora o nothing_restored = o.
  Proof. destruct o; unfold join_isidora, nothing_restored. j_end. rewrite !app_nil_r, !add0. reflexivity. Qed.
  Definition isi_jobs := jobs run join_isidora nothing_restored (fun _ r => r) isi_app isi_join isi_empty.
End Isi.

Section Dio.
  Definition dio_event := nat -> list (list Q) -> list (list Q) -> result (option (list (list Z) * list (list Z) * list (list Z))).
  Lemma dio_app (f : dio_event) a : forall b o, diomira_all f (a ++ b) o = rbind (diomira_all f a o) (diomira_all f b).
  Proof. induction a as [|w a IH]; intros b o; [reflexivity|]. cbn [app diomira_all]. destruct (f _ _ _); [|reflexivity]. cbn [rbind]. apply IH. Qed.
  Lemma dio_join items : forall (f : dio_event) o o1, diomira_all f items (join_diomira o o1) = rbind (diomira_all (fun i => f (dt_in o + i)) items o1) (fun o2 => Ok (join_diomira o o2)).
  Proof.
    induction items as [|w items IH]; intros f o o1; [reflexivity|]. cbn [diomira_all]. change (dt_in (join_diomira o o1)) with (dt_in o + dt_in o1).
    destruct (f (dt_in o + dt_in o1) (w_pmt w) (w_sipm w)) as [[[[rwf blr] sipm]|]|]; [| |reflexivity]; cbn [rbind]; rewrite <- IH; f_equal;
      unfold join_diomira; j_end; rewrite !ab, <- !plus_n_Sm; reflexivity.
  Qed.
  Lemma dio_empty o : join_diomira o nothing_simulated = o.
  Proof. destruct o; unfold join_diomira, nothing_simulated. j_end. rewrite !app_nil_r, !add0. reflexivity. Qed.
  Definition dio_jobs := jobs diomira_all join_diomira nothing_simulated (fun o f => fun i => f (dt_in o + i)) dio_app dio_join dio_empty.
End Dio.

Section Pm.
  Context {W L : Type}.
  Variables (f32 : Q -> Q) (n_sensors : nat).
  Definition pm_step := nat -> W -> L -> result (option (list peak * list peak)).
  Let run (st : pm_step) := pmaps_all f32 st n_sensors.
  Lemma s1s_join l : forall t u n ev, store_s1s f32 (join_tables t u) l n ev = rbind (store_s1s f32 u l n ev) (fun x => Ok (join_tables t x)).
  Proof.
    induction l as [|p l IH]; intros t u n ev; [reflexivity|]. cbn [store_s1s]. destruct (sum_rows _ _ _ _); [|reflexivity]. cbn [rbind]. destruct (sensor_rows _ _ _ _); [|reflexivity]. cbn [rbind].
    rewrite <- IH. f_equal. unfold join_tables. j_end. rewrite !ab. reflexivity.
  Qed.
  Lemma s2s_join l : forall t u n ev, store_s2s f32 (join_tables t u) l n ev = rbind (store_s2s f32 u l n ev) (fun x => Ok (join_tables t x)).
  Proof.
    induction l as [|p l IH]; intros t u n ev; [reflexivity|]. cbn [store_s2s]. destruct (sum_rows _ _ _ _); [|reflexivity]. cbn [rbind]. destruct (sensor_rows _ (p_pmts p) _ _); [|reflexivity]. cbn [rbind].
    destruct (sensor_rows _ _ _ _); [|reflexivity]. cbn [rbind].
    rewrite <- IH. f_equal. unfold join_tables. j_end. rewrite !ab. reflexivity.
  Qed.
  Lemma pmap_join t u ev pm : store_pmap f32 (join_tables t u) ev pm = rbind (store_pmap f32 u ev pm) (fun x => Ok (join_tables t x)).
  Proof. unfold store_pmap. rewrite s1s_join. destruct (store_s1s _ _ _ _ _); [|reflexivity]. cbn [rbind]. apply s2s_join. Qed.
  Lemma trigger_join t u a b : store_trigger n_sensors (join_trigger t u) a b = rbind (store_trigger n_sensors u a b) (fun x => Ok (join_trigger t x)).
  Proof.
    unfold store_trigger, join_trigger. j_end. destruct b as [l|]; [destruct (Nat.eqb _ _); [|reflexivity]|]; cbn [rbind]; f_equal; j_end; destruct a as [z|]; try (destruct (z =? 0)%Z); rewrite ?ab; reflexivity.
  Qed.
  Lemma pm_app st a : forall b o, run st (a ++ b) o = rbind (run st a o) (run st b).
  Proof.
    unfold run. induction a as [|w a IH]; intros b o; [reflexivity|]. cbn [app pmaps_all]. destruct (st _ _ _) as [[pm|]|]; [| |reflexivity]; cbn [rbind]; [|apply IH].
    destruct (IreneModel.nonempty_pmap pm); [|apply IH]. destruct (store_pmap _ _ _ _); [|reflexivity]. cbn [rbind]. destruct (store_trigger _ _ _ _); [|reflexivity]. cbn [rbind]. apply IH.
  Qed.
  Lemma pm_join items : forall st o o1, run st items (join_irene o o1) = rbind (run (fun i => st (it_in o + i)) items o1) (fun o2 => Ok (join_irene o o2)).
  Proof.
    unfold run. induction items as [|w items IH]; intros st o o1; [reflexivity|]. cbn [pmaps_all]. change (it_in (join_irene o o1)) with (it_in o + it_in o1).
    destruct (st (it_in o + it_in o1) (w_pmt w) (w_sipm w)) as [[pm|]|]; [| |reflexivity]; cbn [rbind].
    - destruct (IreneModel.nonempty_pmap pm).
      + change (it_pmaps (join_irene o o1)) with (join_tables (it_pmaps o) (it_pmaps o1)). change (it_trigger (join_irene o o1)) with (join_trigger (it_trigger o) (it_trigger o1)).
        rewrite pmap_join. destruct (store_pmap _ _ _ _) as [t|]; [|reflexivity]. cbn [rbind]. rewrite trigger_join. destruct (store_trigger _ _ _ _) as [g|]; [|reflexivity]. cbn [rbind].
        rewrite <- IH. f_equal. unfold join_irene. j_end. rewrite !ab, <- !plus_n_Sm. reflexivity.
      + rewrite <- IH. f_equal. unfold join_irene. j_end. rewrite !ab, <- !plus_n_Sm. reflexivity.
    - rewrite <- IH. f_equal. unfold join_irene. j_end. rewrite !ab, <- !plus_n_Sm. reflexivity.
  Qed.
  Lemma pm_empty o : join_irene o nothing_found = o.
  Proof. destruct o as [[] ? ? ? ? [] ? ? ?]; unfold join_irene, nothing_found, join_tables, join_trigger, empty_tables. j_end. rewrite !app_nil_r, !add0. reflexivity. Qed.
  Definition pm_jobs := jobs run join_irene nothing_found (fun o st => fun i => st (it_in o + i)) pm_app pm_join pm_empty.
End Pm.
