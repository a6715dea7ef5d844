(** C108: the file of a run of sophronia, and of one of irene, read by a run of esmeralda *)
From Coq Require Import NArith.
From Verif Require Import Base PeaksModel PeaksSpec BuffersModel ReadModel ReadSpec ReadProps PmapioModel PmapioSpec FiltersModel FiltersSpec FiltersProps XyModel HitsModel HitsSpec CorrModel CorrSpec EsmModel EsmSpec SophModel SophSpec SophPeak SophProps SophEnergy CorrMore SoeModel SoeSpec SoeProps.
From Verif Require Import KrModel KrSpec KrProps CalibModel IreneModel IreneSpec IreneProofs IrunModel IrunSpec IrunProps PreadModel PreadSpec PreadProps DorModel DorSpec DorProps SrunModel SrunSpec SrunProps.
From Verif Require PaolinaProps PaolinaModel PaolinaSpec TopoModel TopoSpec ErunModel ErunSpec ErunProps.
Import ErunModel ErunSpec ErunProps.
Local Open Scope nat_scope.

(** the file a run of sophronia leaves. The table of hits is made when the first hits are written (io/dst_io.py df_writer); the others at the start. *)
Definition sophronia_file (o : sout) : hfile (Z * hit) krrow :=
  {| f_hits := if existsb snd (so_valid o) then Some (so_hits o) else None; f_kdst := Some (so_rows o);
     f_runs := Some (map (fun i => fst (fst i)) (so_info o)); f_events := Some (map (fun i => (snd (fst i), snd i)) (so_info o)) |}.

Lemma grouped {A} (key : A -> Z) keys groups : NoDup keys -> Forall2 (fun k g => forall x, In x g -> key x = k) keys groups ->
  Forall2 (fun k g => filter (fun x => Z.eqb (key x) k) (concat groups) = g) keys groups.
Proof.
  intros N F. induction F as [|k g keys groups H F IH]; [constructor|]. inversion N as [|? ? Nk N']; subst. specialize (IH N'). cbn [concat].
  assert (Z0 : filter (fun x => Z.eqb (key x) k) (concat groups) = []).
  { apply PmapioProofs.filter_none_in. intros x Hx. apply in_concat in Hx. destruct Hx as (g' & Hg & Hx). destruct (f2_in_r _ _ _ _ F Hg) as (k' & Hk & Hg'). apply Z.eqb_neq. rewrite (Hg' x Hx). intros ->. contradiction. }
  constructor.
  - rewrite filter_app, Z0, app_nil_r. apply PmapioProofs.filter_all_in. intros x Hx. apply Z.eqb_eq. now apply H.
  - assert (Nk' : forall k', In k' keys -> filter (fun x => Z.eqb (key x) k') g = []).
    { intros k' Hk. apply PmapioProofs.filter_none_in. intros x Hx. apply Z.eqb_neq. rewrite (H x Hx). intros ->. contradiction. }
    clear -IH Nk'. generalize dependent (concat groups). intros c IH. induction IH as [|k' g' keys groups E F IH]; [constructor|]. constructor; [|apply IH; intros; apply Nk'; now right]. rewrite filter_app, (Nk' k' (or_introl eq_refl)). exact E.
Qed.
Lemma only_map {A B} (P : A -> Prop) (f : A -> B) l out : only P l out -> NoDup (map f l) -> NoDup (map f out).
Proof.
  intros O. induction O as [|a l out Ha O IH|a l out Ha O IH]; intros N; [constructor| |]; inversion N as [|? ? Na N']; subst; [|auto]. cbn [map]. constructor; [|auto].
  intros C. apply Na. apply in_map_iff in C. destruct C as (b & Eb & Hb). rewrite <- Eb. apply in_map. now apply (only_in _ _ _ _ O).
Qed.

Section Chain.
  Variable nearest : list (Q * Q * Q) -> Q * Q * Q -> nat.
  Hypothesis griddata : takes_nearest nearest.
  Variables (xys : list (Q * Q)) (v : Q) (noise : list nat -> list Q -> Z -> list Q) (sw : Q -> Z) (ct : charge_type) (sqrt : Q -> Q) (atan : Q -> Q -> Q) (qthr : Q).
  Variables (c : limits) (md : rebin_model) (thr : Q) (same_peak : bool) (corr : option corrections).
  (** esmeralda *)
  Variable others : hit -> nat.
  Variables (round5 : Q -> Q) (paths : list PaolinaModel.voxel -> list PaolinaModel.voxel * (PaolinaModel.voxel -> PaolinaModel.voxel -> Q)) (norm : PaolinaModel.pos3 -> Q).
  Hypothesis paths_right : PaolinaSpec.paths_ok paths.
  Hypothesis paths_sym : TopoSpec.paths_metric paths.
  Hypothesis norm_pos : forall s, (0 <= norm s)%Q.
  Variables (m : list kbin) (dvs : list (option Q)) (method : norm_method) (region : option region) (apply_z : bool).
  Hypothesis map_ok : usable_map m method region.
  Hypothesis map_pos : forall b mu, In b m -> kb_mu b = Some mu -> (0 < mu)%Q.
  Hypothesis velocities : apply_z = true -> numbers dvs <> [].
  Variables (R th : Q) (sp : bool).
  Hypothesis th_pos : (0 < th)%Q.
  Variables (dims : Q * Q * Q) (strict : bool) (ethr : Q) (minv : nat) (blob : Q) (scan : option Q) (maxh : Z).
  Hypothesis dims_pos : PaolinaProps.positive_dims dims.
  Hypothesis blob_pos : (0 < blob)%Q.
  Hypothesis scan_pos : forall r, scan = Some r -> (0 <= r)%Q.
  Notation ch := (charge_of ct noise sw).
  Notation charges := (charge_single noise sw ct).
  Notation city := (esmeralda w_event nearest others round5 paths norm m dvs method region false apply_z R th sp dims strict ethr minv blob scan maxh).

  (** the item of an event, with the rows [rows] and the hits [o] it has in the file of sophronia *)
  Definition passed_on (rn : Z) (x : pitem * (list krrow * option (list hit))) (it' : hitem (Z * hit) krrow) : Prop :=
    let '(it, (rows, o)) := x in
    i_event it' = pi_event it /\ i_time it' = pi_time it /\ i_run it' = rn /\ i_kdst it' = rows /\ i_hits it' = hit_rows it o.

  (** each event of the file of sophronia is read with exactly its rows and its hits *)
  Lemma sophronia_read items rn so : hits_file xys v noise sw ct sqrt atan qthr c md thr same_peak corr items so -> (1 <= fst (s2_n c))%Q ->
    NoDup (map pi_event items) -> (forall it, In it items -> pi_run it = rn) -> (forall it p, In it items -> In p (s2s (pi_pmap it)) -> not_negative p) ->
    (exists e, In (e, true) (so_valid so)) ->
    well_formed w_event (sophronia_file so) /\ (forall hits h, f_hits (sophronia_file so) = Some hits -> In h hits -> (0 <= HitsSpec.val (hE (snd h)))%Q) /\
    exists kept rowss hitss,
      only (fun it => accepted c (pi_pmap it)) items kept /\
      Forall2 (event_rows xys charges sqrt atan qthr c v (rms sqrt)) kept rowss /\ Forall2 (event_hits xys v ch qthr c md thr same_peak corr) kept hitss /\
      forall its, read_of_file fst w_event (sophronia_file so) its -> Forall2 (passed_on rn) (combine kept (combine rowss hitss)) its.
  Proof using.
    intros (kept & rowss & hitss & O & FR & Er & FH & Eh & Ev & _ & Ei & _) N2 ND Rn NN (e1 & He1).
    assert (NDk : NoDup (map pi_event kept)) by (eapply only_map; eassumption).
    assert (Ex : existsb snd (so_valid so) = true) by (apply existsb_exists; exists (e1, true); now split).
    assert (Ks : forall it, In it kept -> In it items /\ accepted c (pi_pmap it)) by (intros it Hi; exact (only_in _ _ _ _ O Hi)).
    (* rows of an event *)
    assert (RE : Forall2 (fun k g => forall x, In x g -> w_event x = k) (map pi_event kept) rowss).
    { apply KrProps.F2_map_l. eapply F2_impl; [|exact FR]. intros it rows (l1 & l2 & place & _ & _ & _ & F) x Hx. destruct (f2_in_r _ _ _ _ F Hx) as ([i j] & _ & (E & _)). exact E. }
    assert (RN : Forall (fun rows => rows <> []) rowss).
    { apply Forall_forall. intros rows Hr. destruct (f2_in_r _ _ _ _ FR Hr) as (it & Hi & (l1 & l2 & place & _ & O2 & _ & F)). destruct (Ks it Hi) as (_ & (n1 & n2 & _ & H2 & _ & (B & _))).
      pose proof (only_how_many _ _ _ _ O2 H2) as L. intros ->. inversion F as [Ep|]. assert (L0 : l2 = []). { destruct l2 as [|p l2]; [reflexivity|]. exfalso. unfold pairs in Ep. cbn [length seq] in Ep. destruct l1; cbn in Ep; discriminate. }
      rewrite L0 in L. cbn in L. subst n2. assert (qn 0 == 0)%Q by reflexivity. lra. }
    assert (HE : Forall2 (fun k g => forall x, In x g -> fst x = k) (map pi_event kept) (map2 hit_rows kept hitss)).
    { clear -FH. induction FH as [|it h kept hitss _ F IH]; cbn [map map2]; constructor; [|exact IH]. intros x Hx. destruct h as [l|]; [|easy]. cbn in Hx. apply in_map_iff in Hx. destruct Hx as (g & <- & _). reflexivity. }
    (* the file is complete *)
    assert (Kn : kept <> []). { intros ->. inversion FH; subst. rewrite Ev in He1. destruct He1. }
    set (f := sophronia_file so). assert (Cp : exists more, f_runs f = Some (rn :: more)).
    { unfold f, sophronia_file. cbn [f_runs]. rewrite Ei, map_map. destruct kept as [|it kept']; [easy|]. cbn [map fst]. rewrite (Rn it) by (apply Ks; now left). eexists. reflexivity. }
    assert (Comp : complete f (so_hits so) (so_rows so) rn (map (fun it => (pi_event it, pi_time it)) kept)).
    { unfold complete, f, sophronia_file. cbn [f_hits f_kdst f_events f_runs]. rewrite Ex. do 2 (split; [reflexivity|]). split; [now rewrite Ei, map_map|]. destruct Cp as (more & Cp). exists more. exact Cp. }
    assert (Same : same_number w_event (so_rows so) (map (fun it => (pi_event it, pi_time it)) kept)).
    { intros evs Ne He. rewrite map_length. rewrite <- (map_length pi_event kept). apply Permutation_length, NoDup_Permutation; [exact Ne|exact NDk|]. intros e. rewrite He, Er. split.
      - intros Hx. apply in_map_iff in Hx. destruct Hx as (w & <- & Hw). apply in_concat in Hw. destruct Hw as (g & Hg & Hw). destruct (f2_in_r _ _ _ _ RE Hg) as (k & Hk & H). now rewrite (H w Hw).
      - intros Hx. clear -RE RN Hx. induction RE as [|k g keys groups H F IH]; [easy|]. inversion RN as [|? ? G1 G2]; subst. cbn [concat]. rewrite map_app, in_app_iff. destruct Hx as [->|Hx]; [left|right; now apply IH]. destruct g as [|w g]; [easy|]. left. apply H. now left. }
    split; [|split].
    - right. exists (so_hits so), (so_rows so), rn, (map (fun it => (pi_event it, pi_time it)) kept). split; [exact Comp|exact Same].
    - intros hits h Ef Hh. fold f in Ef. destruct Comp as (Ch & _). rewrite Ch in Ef. injection Ef as <-. rewrite Eh in Hh. apply in_concat in Hh. destruct Hh as (grp & Hg & Hh).
      assert (X : exists it o, In it kept /\ event_hits xys v ch qthr c md thr same_peak corr it o /\ In h (hit_rows it o)).
      { clear -FH Hg Hh. induction FH as [|it o0 kept hitss H F IH]; [easy|]. cbn [map2] in Hg. destruct Hg as [<-|Hg]; [exists it, o0; split; [now left|now split]|]. destruct (IH Hg) as (it' & o' & A & B). exists it', o'. split; [now right|exact B]. }
      destruct X as (it & [l|] & Hi & (l1 & chosen & t0 & rebinned & groups & _ & O2 & _ & _ & _ & X) & Hl); [|easy]. destruct X as (_ & merged & Hco & _ & Pos & _). cbn in Hl. apply in_map_iff in Hl. destruct Hl as (g & <- & Hl). cbn [snd].
      assert (Pm : forall h, In h merged -> (0 <= HitsSpec.val (hE h))%Q).
      { apply Pos. intros i p Hp. apply (NN it p); [now apply Ks|]. destruct (only_in _ _ _ _ O2 Hp) as (Hc & _). now apply in_combine_r in Hc. }
      unfold corrected_as in Hco. destruct corr as [k|]; [|subst; now apply Pm]. destruct Hco as (dv0 & _ & Fc). destruct (f2_in_r _ _ _ _ Fc Hl) as (h0 & H0 & (_ & _ & _ & _ & _ & Ee & _)). rewrite Ee. now apply Pm.
    - exists kept, rowss, hitss. split; [exact O|]. split; [exact FR|]. split; [exact FH|]. intros part F0. fold f in F0.
      destruct F0 as [(L & _)|(hits' & kdst' & rn' & events' & Cp' & F')].
      + exfalso. destruct Comp as (A1 & A2 & A3 & more & A4). destruct L as [L|[L|[L|[L|L]]]]; congruence.
      + destruct Comp as (A1 & A2 & A3 & more & A4). destruct Cp' as (B1 & B2 & B3 & more' & B4). assert (hits' = so_hits so) by congruence. assert (kdst' = so_rows so) by congruence. assert (rn' = rn) by congruence. assert (events' = map (fun it => (pi_event it, pi_time it)) kept) by congruence. subst hits' kdst' rn' events'.
        pose proof (grouped w_event _ _ NDk RE) as GR. pose proof (grouped fst _ _ NDk HE) as GH. rewrite <- Er in GR. rewrite <- Eh in GH. clear -GR GH F' FR FH.
        revert GR GH F'. generalize (so_rows so) (so_hits so). intros rws hts GR GH F'. revert part rowss hitss FR FH GR GH F'. induction kept as [|it kept IH]; intros part rowss hitss FR FH GR GH F'; inversion FR; inversion FH; subst; inversion F' as [|? it' ? part' IO F'']; subst; [constructor|].
        cbn [map map2] in GR, GH. inversion GR; subst. inversion GH; subst. cbn [combine]. constructor; [|now apply IH]. cbn [passed_on].
        destruct IO as (I1 & I2 & I3 & I4 & I5). cbn [fst snd] in *. split; [exact I1|]. split; [exact I2|]. split; [exact I3|].
        split; [|].
        * eapply kept_fun; [exact I5|]. apply kept_filter. intros x0. apply Z.eqb_eq.
        * eapply kept_fun; [exact I4|]. first [match goal with H : filter _ hts = _ |- _ => rewrite <- H end|idtac]. apply kept_filter. intros x0. apply Z.eqb_eq.
  Qed.

  Theorem C108_sophronia items rn so : hits_file xys v noise sw ct sqrt atan qthr c md thr same_peak corr items so -> (1 <= fst (s2_n c))%Q ->
    NoDup (map pi_event items) -> (forall it, In it items -> pi_run it = rn) -> (forall it p, In it items -> In p (s2s (pi_pmap it)) -> not_negative p) ->
    (exists e, In (e, true) (so_valid so)) ->
    exists kept rowss hitss its o dv,
      only (fun it => accepted c (pi_pmap it)) items kept /\
      Forall2 (event_rows xys charges sqrt atan qthr c v (rms sqrt)) kept rowss /\ Forall2 (event_hits xys v ch qthr c md thr same_peak corr) kept hitss /\
      city [sophronia_file so] = Ok o /\ Forall2 (passed_on rn) (combine kept (combine rowss hitss)) its /\
      velocity dvs apply_z dv /\ tracks_file m dv R th sp others round5 maxh its o.
  Proof using All.
    intros H N2 ND Rn NN Hv. destruct (sophronia_read items rn so H N2 ND Rn NN Hv) as (W & Pos & kept & rowss & hitss & O & FR & FH & Rd).
    destruct (C108_run w_event nearest griddata others round5 paths norm paths_right paths_sym norm_pos m dvs method region apply_z map_ok map_pos velocities R th sp th_pos dims strict ethr minv blob scan maxh dims_pos blob_pos scan_pos [sophronia_file so]) as (o & parts & dv & E & F & V & T).
    - intros g [<-|[]]. exact W.
    - intros g hits h [<-|[]]. apply Pos.
    - inversion F as [|? part ? rest F0 F1]; subst. inversion F1; subst. cbn [concat] in T. rewrite app_nil_r in T. exists kept, rowss, hitss, part, o, dv. do 4 (split; [assumption|]). split; [now apply Rd|]. split; [exact V|exact T].
  Qed.

  (** if no accepted event has hits there is no table of hits, and the file is skipped whole, also the rows of its events *)
  Theorem C108_no_hits so before after o : (forall e b, In (e, b) (so_valid so) -> b = false) -> city (before ++ sophronia_file so :: after) = Ok o <-> city (before ++ after) = Ok o.
  Proof using.
    intros H. assert (X : existsb snd (so_valid so) = false). { apply not_true_is_false. intros C. apply existsb_exists in C. destruct C as ([e b] & Hi & Eb). cbn in Eb. rewrite (H e b Hi) in Eb. discriminate. }
    unfold esmeralda. assert (Y : hits_and_kdst_from_files fst w_event (before ++ sophronia_file so :: after) = hits_and_kdst_from_files fst w_event (before ++ after)); [|now rewrite Y].
    unfold hits_and_kdst_from_files. induction before as [|f before IH]; cbn [app over_files].
    - unfold hits_and_kdst_from_file at 1. cbn [sophronia_file f_hits f_kdst f_runs f_events]. rewrite X. destruct (over_files _ after). reflexivity.
    - rewrite IH. reflexivity.
  Qed.
End Chain.

(** from the waveforms: the file of a run of irene, read by one of sophronia, whose file is read by one of esmeralda *)
Theorem C108_irene butter sqrt f32 pmts sipms p ns nss r m events run nearest xys v noise sw ct atan qthr c md thr same_peak corr
  others round5 paths norm km dvs method region apply_z R th sp dims strict ethr minv blob scan maxh :
  (forall e, In e events -> good_event pmts sipms p ns nss (re_pmt e) (re_sipm e) r m) -> selection_fits sipms (cut p) ->
  NoDup (map re_number events) -> NoDup (map pm_id (filter pm_active pmts)) -> (N.of_nat ns <= 65536)%N ->
  takes_nearest nearest -> (forall ids qs w, length ids = length qs -> length (noise ids qs w) = length qs) -> (0 < thr)%Q -> usable_corrections corr ->
  length xys = length sipms -> limits_ok c -> (1 <= fst (s2_n c))%Q -> (1 <= fst (s2_nsipm c))%Q ->
  PaolinaSpec.paths_ok paths -> TopoSpec.paths_metric paths -> (forall s, 0 <= norm s)%Q -> usable_map km method region -> (forall b mu, In b km -> kb_mu b = Some mu -> (0 < mu)%Q) ->
  (apply_z = true -> numbers dvs <> []) -> (0 < th)%Q -> PaolinaProps.positive_dims dims -> (0 < blob)%Q -> (forall r, scan = Some r -> (0 <= r)%Q) ->
  exists o pms items d,
    irene_run f32 (irene_event butter sqrt pmts sipms p ns nss) events nothing_written = Ok o /\
    sophronia nearest xys v noise sw ct sqrt atan qthr c (fst (args_of md)) (snd (args_of md)) thr same_peak corr [irene_file run o] = Ok d /\
    Forall2 (right_pmap butter sqrt pmts sipms p ns r m) events pms /\
    Forall2 (fun x it => pi_event it = re_number (fst x) /\ pi_time it = re_time (fst x) /\ pi_run it = run /\ pi_pmap it = round_pmap f32 (snd x)) (found (combine events pms)) items /\
    hits_file xys v noise sw ct sqrt atan qthr c md thr same_peak corr items d /\
    ((exists e, In (e, true) (so_valid d)) -> (forall it p, In it items -> In p (s2s (pi_pmap it)) -> not_negative p) ->
     exists kept rowss hitss its e dv,
       only (fun it => accepted c (pi_pmap it)) items kept /\
       Forall2 (event_rows xys (charge_single noise sw ct) sqrt atan qthr c v (rms sqrt)) kept rowss /\ Forall2 (event_hits xys v (charge_of ct noise sw) qthr c md thr same_peak corr) kept hitss /\
       esmeralda w_event nearest others round5 paths norm km dvs method region false apply_z R th sp dims strict ethr minv blob scan maxh [sophronia_file d] = Ok e /\
       Forall2 (passed_on run) (combine kept (combine rowss hitss)) its /\ velocity dvs apply_z dv /\ tracks_file km dv R th sp others round5 maxh its e).
Proof.
  intros G F ND NI Hn Ne Nl Tp Co Lx Lim N1 N2 P1 P2 P3 M1 M2 V0 T0 D0 B0 S0.
  destruct (C107_irene butter sqrt f32 pmts sipms p ns nss r m events run nearest xys v noise sw ct atan qthr c md thr same_peak corr G F ND NI Hn Ne Nl Tp Co Lx Lim N1 N2) as (o & pms & items & d & R1 & R2 & P & I & H).
  exists o, pms, items, d. do 5 (split; [assumption|]). intros Hv NN.
  refine (C108_sophronia nearest Ne xys v noise sw ct sqrt atan qthr c md thr same_peak corr others round5 paths norm P1 P2 P3 km dvs method region apply_z M1 M2 V0 R th sp T0 dims strict ethr minv blob scan maxh D0 B0 S0 items run d H N1 _ _ NN Hv).
  - assert (X : map pi_event items = map (fun x => re_number (fst x)) (found (combine events pms))); [|rewrite X; now apply nodup_found]. clear -I. induction I as [|x it l l' (E & _) I IH]; [reflexivity|]. cbn [map]. now rewrite E, IH.
  - intros it Hi. destruct (f2_in_r _ _ _ _ I Hi) as (x & _ & (_ & _ & E & _)). exact E.
Qed.

(** the run of sophronia of C107_example, read by esmeralda: the hits of its first event are seen, its last event has none *)
Definition dor_hits := sophronia first_nearest [(0, 0); (40, 80)]%Q 2 (fun _ q _ => q) (fun _ => 1%Z) Raw (fun x => x) (fun _ _ => 0%Q) 5 (dor_limits 1 1) (fst (args_of (ByStride 1))) (snd (args_of (ByStride 1))) 3 true None [file_of dor_events].
Example C108_sophronia_example :
  match dor_hits with
  | Ok so => (exists e, In (e, true) (so_valid so)) /\
    match esmeralda w_event first_nearest (fun _ => 0) (fun x => x) PaolinaProps.unit_paths (fun _ => 1%Q) EsmProps.map_ex [Some 2%Q] Maximum None false true 50%Q 10%Q true (1, 1, 1)%Q true 0%Q 1 1%Q None 10%Z [sophronia_file so] with
    | Ok o => eo_select o = [(7%Z, true); (9%Z, false)] /\ map (fun r => (c_number r, hX (c_hit r))) (eo_hits o) = [(7%Z, 0%Q)] /\ length (eo_kdst o) = 2 /\ eo_in o = 2
    | Err _ => False
    end
  | Err _ => False
  end.
Proof. vm_compute. split; [exists 7%Z; now left|repeat split]. Qed.
Example C108_sophronia_positive it p : In it (fst (pmap_from_files [file_of dor_events])) -> In p (s2s (pi_pmap it)) -> not_negative p.
Proof.
  intros Hi Hp r x Hr Hx. vm_compute in Hi. repeat (destruct Hi as [<-|Hi]; [vm_compute in Hp; repeat (destruct Hp as [<-|Hp]; [vm_compute in Hr; repeat (destruct Hr as [<-|Hr]; [vm_compute in Hx; repeat (destruct Hx as [<-|Hx]; [discriminate|]); destruct Hx|]); destruct Hr|]); destruct Hp|]). destruct Hi.
Qed.
Print Assumptions C108_sophronia.
Print Assumptions C108_no_hits.
Print Assumptions C108_irene.
