(** Lemmas for C114 *)
From Coq Require Import String Qround Lia.
From Verif Require ReadModel ReadSpec ReadProps ReadMc.
From Verif Require Import Base ConfigModel TablesModel SbinModel SbinSpec SbinProps PeaksModel BuffersModel BuffersSpec BuffersEvent PeaksProofs BuffersProps NoiseModel FeeModel HypaModel TrigModel DioModel FrunModel BfyModel BfySpec.
Local Open Scope nat_scope.
Notation len := List.length.

Lemma rmap_ok {A B} (f : A -> result B) (P : A -> B -> Prop) l : (forall a, In a l -> exists b, f a = Ok b /\ P a b) -> exists bs, rmap f l = Ok bs /\ Forall2 P l bs.
Proof.
  induction l as [|a l IH]; intros H; [exists []; split; [reflexivity|constructor]|]. destruct (H a (or_introl eq_refl)) as (b & E & Hb). destruct IH as (bs & E' & F); [intros; apply H; now right|].
  exists (b :: bs). cbn. rewrite E. cbn. rewrite E'. split; [reflexivity|now constructor].
Qed.

(** ---- numbers ---- *)
Lemma qltb_false x y : (y <= x)%Q -> Qltb x y = false.
Proof. intros H. destruct (Qltb_spec x y); [lra|reflexivity]. Qed.
Lemma trunc_nonneg q : (0 <= q)%Q -> Qtrunc q = Qfloor q.
Proof. intros H. unfold Qtrunc. now rewrite qltb_false. Qed.
Lemma trunc_int x z : (x == inject_Z z)%Q -> Qtrunc x = z.
Proof. intros H. unfold Qtrunc. destruct (Qltb x 0); rewrite H; [apply Qceiling_Z|apply Qfloor_Z]. Qed.
Lemma floor_nonneg q : (0 <= q)%Q -> (0 <= Qfloor q)%Z.
Proof. intros H. change 0%Z with (Qfloor (inject_Z 0)). now apply Qfloor_resp_le. Qed.
Lemma floor_less q n : (q < inject_Z n)%Q -> (Qfloor q < n)%Z.
Proof. intros H. rewrite Zlt_Qlt. pose proof (Qfloor_le q). lra. Qed.

Lemma part_le {A} (f : A -> Q) (p q : A -> bool) l : (forall a, In a l -> 0 <= f a)%Q -> (forall a, p a = true -> q a = true) -> (sumF f (filter p l) <= sumF f (filter q l))%Q.
Proof.
  intros H I. rewrite !sumF_filter_if. apply sumF_le. intros a Ha. specialize (H a Ha). specialize (I a). destruct (p a); [rewrite I by reflexivity; lra|]. destruct (q a); lra.
Qed.
Lemma sample_bounds data i stop w t : (forall h, In h data -> 0 <= scharge h)%Q -> (0 <= sample_charge data i stop w t <= sumF scharge (filter (fun h => sid h =? i) data))%Q.
Proof.
  intros H. unfold sample_charge. assert (P : forall p, (0 <= sumF scharge (filter p data))%Q) by (intros p; apply sumF_nonneg; intros h Hh; apply filter_In in Hh; now apply H). destruct (Qle_bool (t + w) stop); [|split; [lra|apply P]].
  split; [apply P|]. apply part_le; [assumption|]. intros a Ha. apply andb_prop in Ha. destruct Ha as [Ha _]. apply andb_prop in Ha. now destruct Ha.
Qed.

(** ---- arrays ---- *)
Lemma one_size {A} n l (m : list (list A)) : len m = n -> Forall (fun x => len x = l) m -> fits_table n l m = true.
Proof. intros <- F. unfold fits_table. apply Nat.eqb_eq. induction F as [|x m H F IH]; [reflexivity|]. cbn [map len Nat.mul]. change (sumN (len x :: map (@List.length A) m)) with (len x + sumN (map (@List.length A) m)). rewrite IH, H. reflexivity. Qed.
Lemma f2_nth {A B} (P : A -> B -> Prop) l m j b d : Forall2 P l m -> nth_error m j = Some b -> P (nth j l d) b.
Proof. intros F. revert j. induction F as [|x y l m H F IH]; intros [|j] E; try discriminate; cbn in *; [now injection E as <-|auto]. Qed.
Lemma array_stored data db stop w t0 n m : (0 <= n)%Z -> (forall h, In h data -> 0 <= scharge h)%Q -> (forall i, sumF scharge (filter (fun h => sid h =? i) data) < 32768)%Q ->
  buffers_of data db stop w t0 n m -> exists z, store_array (len db) (Z.to_nat n) m = Ok z /\ array_of data db stop w t0 n z.
Proof.
  intros Hn Pos Fit (Hc & Hm & Hr & Hv). unfold store_array. assert (Sz : Forall (fun x => len x = Z.to_nat n) (rows m)).
  { unfold is_mat in Hm. rewrite <- Hc, Nat2Z.id. exact Hm. }
  rewrite (one_size _ _ _ Hr Sz). cbn [negb].
  destruct (rmap_ok (rmap store_float) (Forall2 (fun x v => v = Qtrunc x)) (rows m)) as (z & E & F).
  { intros x Hx. apply rmap_ok. intros q Hq. unfold store_float. destruct (In_nth _ _ [] Hx) as (j & Lj & Ej). destruct (In_nth _ _ 0%Q Hq) as (k & Lk & Ek).
    rewrite Forall_forall in Sz. specialize (Sz x Hx). destruct (nth_error db j) as [i|] eqn:Ei; [|apply nth_error_None in Ei; lia]. specialize (Hv j i k Ei ltac:(lia)). rewrite Ej, Ek in Hv.
    apply trunc_int in Hv as Ht. destruct (sample_bounds data i stop w (t0 + qn k * w) Pos) as [B1 B2]. specialize (Fit i). rewrite (trunc_nonneg _ B1) in Ht. pose proof (floor_nonneg _ B1) as F0.
    assert (F1 : (Qfloor (sample_charge data i stop w (t0 + qn k * w)) < 32768)%Z) by (apply floor_less; change (inject_Z 32768) with 32768%Q; lra).
    rewrite Ht. destruct (Z.ltb_spec (Qfloor (sample_charge data i stop w (t0 + qn k * w))) (-32768)); [lia|]. destruct (Z.ltb_spec 32767 (Qfloor (sample_charge data i stop w (t0 + qn k * w)))); [lia|]. cbn. eexists. split; reflexivity. }
  rewrite E. exists z. split; [reflexivity|]. split; [rewrite <- (Forall2_len _ _ _ F); exact Hr|]. split.
  - clear -F Sz Hn. induction F as [|x y l z H F IH]; [constructor|]. inversion_clear Sz as [|? ? S1 S2]. constructor; [|auto]. rewrite <- (Forall2_len _ _ _ H), S1. lia.
  - intros j i x k v Ei Ex Ev. pose proof (f2_nth _ _ _ j x [] F Ex) as Fx. pose proof (f2_nth _ _ _ k v 0%Q Fx Ev) as ->.
    assert (Lk : k < cols m). { assert (Lx : k < len x) by (apply nth_error_Some; congruence). rewrite <- (Forall2_len _ _ _ Fx) in Lx. rewrite Forall_forall in Sz. rewrite Sz in Lx; [lia|]. apply nth_In. rewrite Hr. apply nth_error_Some. congruence. }
    specialize (Hv j i k Ei Lk). rewrite (trunc_int _ _ Hv). apply trunc_nonneg. now apply sample_bounds.
Qed.

(** ---- the times of the triggers ---- *)
Lemma rows_later c pdb sdb e rows : (0 < pmt_wid c)%Q -> (0 < sipm_wid c)%Q -> (forall h, In h (sim_pmts e ++ sim_sipms e) -> 0 <= stime h)%Q -> buffy_event c pdb sdb e = Ok rows -> Forall (fun row => sim_time e <= time_stamp row)%Q rows.
Proof.
  intros Hp Hsw Ht E. unfold buffy_event in E. destruct (sim_pmts e) as [|x xs] eqn:Ex; [injection E as <-; constructor|]. destruct (sim_sipms e) as [|y ys] eqn:Ey; [injection E as <-; constructor|]. rewrite <- Ex, <- Ey in E. try rewrite <- Ex in Ht. try rewrite <- Ey in Ht.
  destruct (first_last_spec (sim_pmts e) (sim_sipms e) (pmt_wid c) (sipm_wid c)) as (t0 & t1 & Et & _); try congruence.
  assert (T0 : (0 <= t0)%Q).
  { unfold first_and_last_times in Et. rewrite Ex, Ey in Et. cbn [map minQ maxQ rbind] in Et. injection Et as <- _.
    assert (G : forall l a, (0 <= a)%Q -> (forall q, In q l -> 0 <= q)%Q -> (0 <= fold_left Qmin l a)%Q). { induction l as [|q l IH]; intros a Ha Hl; [exact Ha|]. cbn. apply IH; [apply Q.min_glb; [exact Ha|apply Hl; now left]|intros; apply Hl; now right]. }
    apply Q.min_glb; apply G; try (intros q Hq; apply in_map_iff in Hq; destruct Hq as (h & <- & Hh)); apply Ht; rewrite ?Ex, ?Ey, in_app_iff; cbn; tauto. }
  rewrite Et in E. cbn [rbind] in E. unfold bin_sensors in E. set (edges := time_edges (pmt_wid c) t0 t1 (max_time c)) in E.
  assert (He : forall q, In q (removelast edges) -> (0 <= q)%Q).
  { intros q Hq. assert (Hq' : In q edges) by (clear -Hq; induction edges as [|a l IH]; [easy|]; destruct l as [|b l]; [easy|]; cbn [removelast] in Hq; destruct Hq as [<-|Hq]; [now left|right; now apply IH]).
    unfold edges, time_edges, arange in Hq'. apply in_map_iff in Hq'. destruct Hq' as (i & <- & _). assert (0 <= qn i)%Q by (unfold qn; change 0%Q with (inject_Z 0); rewrite <- Zle_Qle; lia).
    assert (Z0 : (0 <= inject_Z (Qfloor (t0 / pmt_wid c)))%Q) by (change 0%Q with (inject_Z 0) at 1; rewrite <- Zle_Qle; apply floor_nonneg; apply Qle_shift_div_l; lra).
    set (a := inject_Z (Qfloor (t0 / pmt_wid c))) in *. clearbody a. nra. }
  unfold save_buffers in E. destruct (find_signal_start _ _ _) as [[|p ps]|]; cbn [rbind] in E; [injection E as <-; constructor| |discriminate].
  destruct (trigger_times (p :: ps) (sim_time e) (removelast edges)) as [times|] eqn:Tt; [|discriminate]. cbn [rbind] in E. destruct (position_signal _ _ _ _ _ _) as [bufs|]; [|discriminate]. cbn [rbind] in E.
  destruct (rmap _ bufs) as [ords|]; [|discriminate]. cbn [rbind] in E. injection E as <-.
  assert (Hts : forall t, In t times -> (sim_time e <= t)%Q).
  { unfold trigger_times in Tt. clear -Tt He. revert times Tt. induction (p :: ps) as [|i l IH]; intros times Tt; [injection Tt as <-; easy|]. cbn [rmap] in Tt. destruct (nth_error (removelast edges) i) as [q|] eqn:Eq; [|discriminate]. cbn [rbind] in Tt.
    destruct (rmap _ l) as [ts|]; [|discriminate]. cbn [rbind] in Tt. injection Tt as <-. intros t [<-|Hin]; [|now apply (IH ts eq_refl)]. apply nth_error_In in Eq. specialize (He q Eq). lra. }
  unfold write_buffers. generalize 0%Z as n. generalize ords. clear -Hts. induction times as [|t times IH]; intros ords n; [constructor|]. cbn [write_from]. destruct ords as [|[a b] ords]; [constructor|]. constructor; [cbn; apply Hts; now left|]. apply IH. intros; apply Hts; now right.
Qed.

(** ---- the rows of an event ---- *)
Section Event.
  Variables (c : bcfg) (r k : nat) (pmt_db sipm_db : list nat) (e : simevent).
  Definition event_fits : Prop :=
    (forall h, In h (sim_pmts e ++ sim_sipms e) -> 0 <= stime h /\ 0 <= scharge h)%Q /\ (0 <= sim_time e)%Q /\
    (forall h, In h (sim_pmts e) -> In (sid h) pmt_db) /\ (forall h, In h (sim_sipms e) -> In (sid h) sipm_db) /\
    (forall i, sumF scharge (filter (fun h => sid h =? i) (sim_pmts e)) < 32768)%Q /\ (forall i, sumF scharge (filter (fun h => sid h =? i) (sim_sipms e)) < 32768)%Q.
  Definition in_range (rows : list brow) : Prop := Forall (fun row => br_nexus row = sim_evt e /\ (sim_evt e * max_subevt c <= br_event row < sim_evt e * max_subevt c + max_subevt c)%Z) rows /\ NoDup (map br_event rows).
  Lemma event_written : good_cfg c r k -> StronglySorted lt pmt_db -> StronglySorted lt sipm_db -> event_fits -> detected e ->
    exists out rows, buffy_event c pmt_db sipm_db e = Ok out /\ rmap (store_row pmt_db sipm_db c) out = Ok rows /\ rows_of pmt_db sipm_db c e rows /\ in_range rows.
  Proof using.
    intros G Sp Ss (Hh & Ht & Hp & Hs & Fp & Fs) [D1 D2]. destruct (C16_event_readout c r k pmt_db sipm_db e G D1 D2 Sp Ss Hp Hs) as (out & trs & p0 & n & stopP & stopS & E & H1 & H2 & H3 & H4 & H5 & H6).
    pose proof (gc_pw _ _ _ G) as Hpw. assert (Hsw : (0 < sipm_wid c)%Q). { rewrite (gc_sw _ _ _ G). pose proof (qn_pos r (gc_r _ _ _ G)). nra. }
    assert (Hbl : (0 <= buffer_len c)%Q). { rewrite (gc_len _ _ _ G). pose proof (qn_pos k (gc_k _ _ _ G)). nra. }
    pose proof (rows_later c pmt_db sipm_db e out Hpw Hsw (fun h Hin => proj1 (Hh h Hin)) E) as Lt.
    assert (Np : (0 <= buffer_len c / pmt_wid c)%Q) by (apply Qle_shift_div_l; lra). assert (Nss : (0 <= buffer_len c / sipm_wid c)%Q) by (apply Qle_shift_div_l; lra).
    pose proof (buffy_event_numbers c pmt_db sipm_db e k out Hpw Hsw (gc_k _ _ _ G) (gc_len _ _ _ G) (gc_max _ _ _ G) E) as Nm.
    assert (Hout : exists rows, rmap (store_row pmt_db sipm_db c) out = Ok rows /\ map br_event rows = map evt_number out /\ map br_nexus rows = map nexus_evt out /\
      Forall2 (fun i row => let t := (p0 + qn i * pmt_wid c)%Q in br_nexus row = sim_evt e /\ br_time row = Qfloor (sim_time e + t) /\
        exists tb, (tb <= t < tb + sipm_wid c)%Q /\
        array_of (sim_pmts e) pmt_db stopP (pmt_wid c) (tb - inject_Z (Qfloor (pre_trigger c / pmt_wid c)) * pmt_wid c) (Qfloor (buffer_len c / pmt_wid c)) (br_pmt row) /\
        array_of (sim_sipms e) sipm_db stopS (sipm_wid c) (tb - inject_Z (Qfloor (pre_trigger c / sipm_wid c)) * sipm_wid c) (Qfloor (buffer_len c / sipm_wid c)) (br_sipm row)) trs rows).
    { clear -H5 Lt Hh Ht Fp Fs Np Nss. induction H5 as [|i row trs out (R1 & R2 & tb & R3 & R4 & R5) F IH]; [exists []; repeat split; constructor|]. inversion_clear Lt as [|? ? L1 L2].
      destruct IH as (rows & E & E1 & E2 & F2); [assumption|]. assert (Hcp : forall h, In h (sim_pmts e) -> (0 <= scharge h)%Q) by (intros h Hin; apply (Hh h); rewrite in_app_iff; tauto). assert (Hcs : forall h, In h (sim_sipms e) -> (0 <= scharge h)%Q) by (intros h Hin; apply (Hh h); rewrite in_app_iff; tauto).
      destruct (array_stored _ _ _ _ _ _ _ (floor_nonneg _ Np) Hcp Fp R4) as (zp & Ep & Ap). destruct (array_stored _ _ _ _ _ _ _ (floor_nonneg _ Nss) Hcs Fs R5) as (zs & Es & As).
      exists ({| br_event := evt_number row; br_time := Qfloor (time_stamp row); br_nexus := nexus_evt row; br_pmt := zp; br_sipm := zs |} :: rows). cbn [rmap]. unfold store_row at 1, store_time. rewrite qltb_false by lra. cbn [rbind].
      rewrite !trunc_nonneg by assumption. rewrite Ep. cbn [rbind]. rewrite Es. cbn [rbind]. rewrite E. cbn [rbind map]. split; [reflexivity|]. cbn [br_event br_nexus]. rewrite E1, E2. do 2 (split; [reflexivity|]). constructor; [|exact F2].
      cbn [br_nexus br_time br_pmt br_sipm]. split; [exact R1|]. split; [apply Qfloor_comp; exact R2|]. exists tb. split; [exact R3|]. split; assumption. }
    destruct Hout as (rows & Er & En & Ex & F). exists out, rows. split; [exact E|]. split; [exact Er|]. split.
    - split; [intros N; exfalso; apply N; now split|]. intros _. exists trs, p0, n, stopP, stopS. do 4 (split; [assumption|]).
      rewrite H6 in En. clear -F En. assert (G : forall a, map br_event rows = map (fun j => (sim_evt e * max_subevt c + Z.of_nat j)%Z) (seq a (len trs)) -> Forall2 (fun ji row => row_in_file pmt_db sipm_db c e p0 stopP stopS (fst ji) (snd ji) row) (combine (seq a (len trs)) trs) rows).
      { clear En. induction F as [|i row trs rows (R1 & R2 & R3) F IH]; intros a En; [constructor|]. cbn [len seq combine map] in *. injection En as E1 E2. constructor; [|now apply IH]. cbn [fst snd]. unfold row_in_file. cbv zeta. split; [exact E1|]. split; [exact R1|]. split; [exact R2|exact R3]. }
      now apply G.
    - split.
      + apply Forall_forall. intros row Hr. assert (Hx : exists o, In o out /\ evt_number o = br_event row /\ nexus_evt o = br_nexus row).
        { clear -Hr En Ex. revert out En Ex. induction rows as [|x rows IH]; intros out En Ex; [easy|]. destruct out as [|o out]; [discriminate|]. cbn [map] in *. injection En as A1 A2. injection Ex as B1 B2. destruct Hr as [<-|Hr]; [exists o; split; [now left|now split]|]. destruct (IH Hr out A2 B2) as (o' & I & X). exists o'. split; [now right|exact X]. }
        destruct Hx as (o & Ho & <- & <-). destruct (numbered_in c (sim_evt e) out o Nm Ho) as [N1 N2]. split; [exact N1|exact N2].
      + rewrite En. now apply (numbered_nodup c (sim_evt e)).
  Qed.
End Event.
